(** Entity tags: what they mean and how they compare. *)
From Coq Require Import ZifyBool ZifyNat ZifyN Permutation String.
From Verif Require Import Base Earley EarleySpec Parse Grammar GrammarSem GrammarLang GrammarWF GrammarVals GrammarExcl GrammarCalc GrammarRend
  Syntax Actions Reading HttpText SyntaxVals SyntaxDates.
Open Scope nat_scope.
Open Scope list_scope.
Unset Strict Implicit.

(** ** Comparison *)

(** [EntityTag] (httpolice/structure.py:296-308). *)
Record entity_tag_ := Tag { tag_weak : bool; opaque : str }.
Definition weak_equiv (a b : entity_tag_) : bool := str_eqb (opaque a) (opaque b).
Definition strong_equiv (a b : entity_tag_) : bool :=
  negb (tag_weak a) && negb (tag_weak b) && str_eqb (opaque a) (opaque b).

(** The value of a tag. *)
Definition tag_val (t : entity_tag_) : val := VObj (s "EntityTag") [VBool (tag_weak t); VStr (opaque t)].

(** RFC 7232 2.3: the text of a tag. *)
Definition tag_text (t : entity_tag_) : str := (if tag_weak t then s "W/" else []) ++ opaque t.
Definition tag_ok (t : entity_tag_) : Prop := exists x, HttpText.all is_etagc x /\ opaque t = [34%N] ++ x ++ [34%N].
Definition tag_notes (t : entity_tag_) : list vcomplaint := if among (opaque t) 92 then [(1119%N, [])] else [].

Section Tags.
Variable nested : pyf -> list val -> val * list vcomplaint.
Notation pf := (pyfun nested).
Notation textual := (textual rec_rules pf).
Notation M := (M rec_rules pf).
Notation V := (V rec_rules pf).
Notation A := (A rec_rules pf).

Lemma etagc_bits : forall c, N.testbit (bits_of etagc) c = is_etagc c.
Proof. octet_tac. Qed.

Lemma opaque_textual : textual (add (add DQUOTE (string_ etagc)) DQUOTE) (cat (cat (fun w => w = [34%N]) (HttpText.all is_etagc)) (fun w => w = [34%N])).
Proof.
  apply textual_add; [apply textual_add|]; try apply dquote_textual.
  apply (@textual_string_class nested etagc (Some (s "etagc")) (bits_of etagc)); [reflexivity|apply etagc_bits].
Qed.

Lemma opaque_w : written (A opaque_tag) (fun u => exists x, HttpText.all is_etagc x /\ u = [34%N] ++ x ++ [34%N]) (fun u => u)
  (fun u => [VStr u]) (fun u => if among u 92 then [(1119%N, [])] else []).
Proof.
  apply (@wa_seal rec_rules pf _ _ _ _ _ _ (fun u => VStr u)); [reflexivity|]. apply w_M.
  eapply written_ext; [apply (w_wrap (w_text opaque_textual) (r:=fun u => VStr u) (k:=fun u => if among u 92 then [(1119%N, [])] else []))| | | |].
  - intros u _. cbn [call_func pyfun]. unfold among. reflexivity.
  - intro u. cbn beta. split.
    + intros [a [b [-> [[c [d [-> [-> H]]]] ->]]]]. exists d. rewrite <- app_assoc. auto.
    + intros [x [H ->]]. exists ([34%N] ++ x), [34%N]. split; [now rewrite <- app_assoc|]. split; [|reflexivity]. exists [34%N], x. auto.
  - reflexivity.
  - reflexivity.
  - reflexivity.
Qed.

Lemma weak_konst : konst nested (seq2 (octet 87) (octet 47)) (s "W/").
Proof. exact (konst_seq (konst_octet nested 87) (konst_octet nested 47)). Qed.

Lemma entity_tag_M w v cs : M entity_tag w v cs <-> exists t, tag_ok t /\ w = tag_text t /\ v = tag_val t /\ Permutation (tag_notes t) cs.
Proof.
  destruct weak_konst as [ns K].
  assert (W : written (V weak) (fun _ : unit => True) (fun _ => s "W/") (fun _ => unskip (VBool true)) (fun _ => [])).
  { apply (@w_seal rec_rules pf _ _ _ _ _ _ (fun _ => VBool true)); [reflexivity|]. apply w_M. apply (@w_subst rec_rules pf _ (VBool true)) in K; [exact K|discriminate]. }
  assert (Mb : written (A (maybe weak (VBool false))) (fun _ : bool => True) (fun b => if b then s "W/" else []) (fun b => [VBool b]) (fun _ => [])).
  { apply (@wa_one nested bool _ _ _ VBool); [discriminate|].
    eapply (@written_map _ _ _ _ _ _ _ _ _ _ _ (fun o : option unit => match o with Some _ => true | None => false end)); [apply (@w_maybe rec_rules pf _ _ (VBool false) _ _ _ _ W)| |].
    - intros [[]|] _; auto.
    - intros [|] _; [exists (Some tt)|exists None]; auto. }
  unfold entity_tag, pivot_. rewrite M_seal by reflexivity. revert w v cs. apply w_M.
  eapply (@written_map _ _ _ _ _ _ _ _ _ _ _ (fun p => Tag (fst p) (snd p))).
  - apply (@w_wrap1 rec_rules pf _ (class "EntityTag") _ _ _ _ _ (fun p => tag_val (Tag (fst p) (snd p))) (w_seq Mb opaque_w)).
    intros [b u] _. split; [reflexivity|discriminate].
  - intros [b u] [_ H]. cbn [fst snd] in *. repeat split; auto.
  - intros [b u] H. exists (b, u). auto.
Qed.

End Tags.
