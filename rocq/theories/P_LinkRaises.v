(** C65, continued: the claim is false of Link.  (The parser is not run here, since that takes long on
    Link; what it gives is known from C107.) *)
From Coq Require Import ZifyBool ZifyNat ZifyN Permutation ConstructiveEpsilon String.
From Verif Require Import Base Earley EarleySpec Parse Grammar GrammarSem GrammarLang GrammarWF GrammarVals GrammarCalc
  Syntax Actions Nested Known Reading HttpText HttpDate P_Earley SyntaxTags SyntaxDates P_Grammar HttpValues SyntaxVals SyntaxDen SyntaxParts SyntaxKit SyntaxMore SyntaxFields SyntaxAgents P_Syntax P_Fields UriText SyntaxUri P_Uri MoreValues SyntaxLang SyntaxExt SyntaxRest P_More P_Types AgainValues SyntaxAgain.
Open Scope nat_scope.
Open Scope list_scope.
Unset Strict Implicit.
Local Open Scope string_scope.
Local Open Scope list_scope.
From Verif Require Import P_Again.

Lemma link_known : existsb (fun j => str_eqb (hk_key j) (s "Link") && match hk_syntax j with Some y => if symbol_dec y Link then true else false | None => false end) header_table = true.
Proof. vm_compute. reflexivity. Qed.
Lemma rel_stumbles : raises [(s "rel", None)].
Proof. exists [], (s "rel"), []. split; [reflexivity|]. split; [intros (_ & q & [] & _)|]. left. exists "rel". split; [cbn [In]; auto|reflexivity]. Qed.
Lemma without_rel : list_spec link_value_text list_shape (s "<>;rel") (VList [VObj (s "Parametrized") [VStr []; VBad]]) [].
Proof.
  exists [Part [] (Some (s "<>;rel", VObj (s "Parametrized") [VStr []; VBad], [])) []]. split; [|split; [split; [discriminate|reflexivity]|]].
  - constructor; [|constructor]. split; [constructor|]. split; [constructor|]. cbn [p_element].
    exists [], (s ";rel"), [(s "rel", None)], VBad, [], []. split; [reflexivity|]. split; [|split; [|split; [reflexivity|split; [reflexivity|]]]].
    + right. exists [], []. split; [reflexivity|]. split; [|now left]. exists [], []. split; [reflexivity|]. split; [|split; [|now left]].
      * exists [], []. split; [reflexivity|]. split; [apply encoded_all; constructor|]. right. split; [reflexivity|]. intros (y & K). discriminate K.
      * intros (x & y & K & _). destruct x; discriminate K.
    + apply (@one_more_param [] [] (s "rel") _ [] [] _ []); [constructor|constructor| |constructor]. exists [], [], [], []. split; [reflexivity|]. split; [now apply a_token|]. split; [split; [constructor|now left]|]. split; [reflexivity|]. now left.
    + left. split; [exact rel_stumbles|auto].
  - split; [reflexivity|]. split; [reflexivity|]. right. split; [|reflexivity]. intros (L & _). cbn [List.length] in L. lia.
Qed.
Lemma no_ws l x y : l = x ++ y -> forallb (fun c => negb (is_ws c)) l = true -> ows y -> y = [].
Proof.
  intros -> F O. destruct y as [|c y]; [reflexivity|]. rewrite forallb_forall in F. specialize (F c). inversion O as [|? ? W _]; subst. rewrite W in F. discriminate F. apply in_app_iff. right. now left.
Qed.
Lemma without l x c y : l = x ++ c :: y -> existsb (N.eqb c) l = false -> False.
Proof. intros -> F. rewrite existsb_app in F. cbn [existsb] in F. rewrite N.eqb_refl, orb_true_r in F. discriminate F. Qed.
Lemma only_crash v cs : list_spec link_value_text list_shape (s "<>;rel") v cs -> crashed v.
Proof.
  intros (ps & F & (N & T) & W & -> & _). destruct ps as [|p [|q ps]]; [now destruct N| |].
  2:{ exfalso. change (s "<>;rel" = part_text p ++ 44%N :: commas (map part_text (q :: ps))) in W. exact (without W eq_refl). }
  inversion F as [|? ? P _]; subst. destruct P as (_ & O & P). cbn [trimmed_left] in T. unfold list_text in W. cbn [map commas] in W. unfold part_text in W. rewrite T in W. cbn [app] in W.
  unfold list_values. cbn [flat_map]. destruct (p_element p) as [[[w v] c]|]; [|rewrite P in W; discriminate W].
  destruct P as (u & rest & ps & m & c1 & c2 & -> & _ & L & -> & _ & X). eapply cr_list; [now left|]. eapply cr_obj; [right; now left|].
  assert (Q : ps = [(s "rel", None)]); [|destruct X as [(_ & -> & _)|(R & _)]; [constructor|destruct R; rewrite Q; exact rel_stumbles]]. clear X F N.
  cbn [app] in W. rewrite <- app_assoc in W. cbn [app] in W. destruct u as [|d u].
  2:{ exfalso. assert (W' : s "<>;rel" = (60%N :: d :: u) ++ 62%N :: (rest ++ p_after p)) by exact W. destruct u as [|d' u].
      - apply (f_equal (skipn 2)) in W'. apply (f_equal (fun l => hd 0%N l)) in W'. discriminate W'.
      - apply (f_equal (skipn 2)) in W'. change (s ";rel" = (d' :: u) ++ 62%N :: (rest ++ p_after p)) in W'. exact (without W' eq_refl). }
  assert (W1 : s ";rel" = rest ++ p_after p) by (apply (f_equal (skipn 2)) in W; exact W). clear W.
  inversion L as [|a b w p1 c' ws ps' cs' A B Lp Ls]; subst.
  { rewrite (@no_ws (s ";rel") [] (p_after p)) in W1; [discriminate W1|exact W1|reflexivity|exact O]. }
  rewrite <- app_assoc in W1. destruct a as [|x a]. 2:{ exfalso. apply (f_equal (hd 0%N)) in W1. cbn [app hd] in W1. inversion A as [|? ? Y _]; subst. discriminate Y. }
  assert (W2 : s "rel" = (b ++ w ++ ws) ++ p_after p) by (apply (f_equal (skipn 1)) in W1; exact W1). clear W1.
  destruct b as [|x b]. 2:{ exfalso. apply (f_equal (hd 0%N)) in W2. cbn [app hd] in W2. inversion B as [|? ? Y _]; subst. discriminate Y. }
  cbn [app] in W2. rewrite <- app_assoc in W2.
  inversion Ls as [|a2 b2 w2 p2 c2' ws2 ps2 cs2 _ _ _ _]; subst. 2:{ exfalso. rewrite <- app_assoc in W2. cbn [app] in W2. rewrite app_assoc in W2. exact (without W2 eq_refl). }
  cbn [app] in W2. destruct Lp as (a1 & r & c3 & c4 & -> & Tk & (Bs & _) & _ & R). destruct p1 as [n o]. cbn [fst snd] in *.
  destruct R as [(-> & -> & _)|(b3 & x & t & c5 & c6 & -> & _)].
  2:{ exfalso. assert (W3 : s "rel" = (n ++ a1) ++ 61%N :: (b3 ++ x) ++ p_after p) by (rewrite W2; rewrite <- !app_assoc; cbn [app]; rewrite <- ?app_assoc; reflexivity). exact (without W3 eq_refl). }
  rewrite app_nil_r, <- app_assoc in W2. assert (Z : a1 ++ p_after p = []) by (apply (@no_ws (s "rel") n); [exact W2|reflexivity|apply Forall_app; split; [exact Bs|exact O]]). rewrite Z, app_nil_r in W2. now rewrite <- W2.
Qed.

(** Full statement of C65, with Link: refuted. *)
Theorem C65_link_refuted : exists i x read w v cs, In i header_table /\ hk_syntax i = Some x /\ hk_key i = s "Link" /\
  parses_http read /\ read x w = Some (v, cs) /\ crashed v.
Proof.
  pose proof link_known as G. apply existsb_exists in G. destruct G as [i [F1 G]]. apply andb_true_iff in G. destruct G as [F2 G].
  destruct (decider (fun _ _ => (VBad, []))) as (again & D & P). destruct (decider (nested again)) as (read & D' & P').
  exists i, Link, read, (s "<>;rel").
  assert (X : hk_syntax i = Some Link) by (destruct (hk_syntax i) as [y|]; [|discriminate G]; destruct (symbol_dec y Link); [now subst|discriminate G]).
  pose proof (D' Link (s "<>;rel") eq_refl) as R. destruct (read Link (s "<>;rel")) as [[v cs]|] eqn:Q.
  - exists v, cs. split; [exact F1|]. split; [exact X|]. split; [apply str_eqb_eq; exact F2|]. split; [exists (fun _ _ => (VBad, [])), again; auto|]. split; [reflexivity|].
    destruct R as (an & r & R & <- & _). destruct (C107_links D an (s "<>;rel")) as (_ & _ & H). destruct (H r R) as (c & H' & _). exact (only_crash H').
  - exfalso. destruct R as (an & e & R). destruct (C107_links D an (s "<>;rel")) as (H & _). destruct H as (r & H); [exists (VList [VObj (s "Parametrized") [VStr []; VBad]]), []; exact without_rel|].
    pose proof (returns_unique R H) as K. discriminate K.
Qed.
Print Assumptions C65_link_refuted.
