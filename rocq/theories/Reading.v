(** What [parse()] makes of a string under a symbol of the HTTP grammar: the
    link between the parser (Earley.v, Parse.v) and the meaning of the
    combinators (GrammarSem.v). *)
From Coq Require Import ZifyBool ZifyNat ZifyN Permutation String.
From Verif Require Import Base Earley EarleySpec EarleyChart EarleySearch EarleyMain Parse P_Earley Grammar GrammarSem GrammarLang
  GrammarWF GrammarVals GrammarCalc Syntax Actions.
Open Scope nat_scope.
Open Scope list_scope.
Unset Strict Implicit.

Notation HG := (sgrammar rec_rules).

(** ** The symbols are well-formed *)

Definition rec_names : list str := [s "comment"].

Lemma comment_rules_only n : In n rec_names -> n = s "comment".
Proof. intros [<-|[]]. reflexivity. Qed.

Lemma http_rec_sane : forall n r y, In n rec_names -> In r (rec_rules n) -> In y (fst r) -> sane rec_names y = true.
Proof.
  intros n r y I1 I2 I3. apply comment_rules_only in I1. subst n.
  assert (X : forallb (fun r : rule => forallb (sane rec_names) (fst r)) (rec_rules (s "comment")) = true) by (vm_compute; reflexivity).
  rewrite forallb_forall in X. specialize (X _ I2). rewrite forallb_forall in X. auto.
Qed.

Lemma http_rec_known : forall n, In (Rec n) (rec_below rec_rules rec_names) -> In n rec_names.
Proof.
  intros n I. unfold rec_below in I. apply in_flat_map in I. destruct I as [m [I1 I]]. apply in_flat_map in I. destruct I as [r [I2 I]].
  apply in_flat_map in I. destruct I as [y [I3 I]]. exact (sane_recs (http_rec_sane I1 I2 I3) I).
Qed.

Lemma http_rec_nullable : forall n, In n rec_names -> exists f b, @is_nullable HG f (Rec n) = Done b.
Proof.
  intros n I. apply comment_rules_only in I. subst n. exists 10, false. vm_compute. reflexivity.
Qed.

Lemma http_rec_lang : forall n, In n rec_names -> exists w, lang rec_rules (Rec n) w.
Proof.
  intros n I. apply comment_rules_only in I. subst n. exists (s "()").
  apply lang_nt; [reflexivity|]. cbn [rules_of].
  change (rslang rec_rules (rec_rules (s "comment")) (s "()")) with
    (rslang rec_rules (as_rules (add (add (lit "(") (string_ (alt (alt ctext (quoted_pair "()\")) comment_rec))) (lit ")"))) (s "()")).
  apply lang_as_rules. apply lang_add. exists (s "("), (s ")"). split; [reflexivity|]. split.
  - apply lang_add. exists (s "("), []. split; [reflexivity|]. split.
    + apply lang_literal. repeat constructor.
    + unfold string_, many. rewrite lang_wrap. apply lang_times; [discriminate|exact I|]. exists 0. split; [split; [lia|exact I]|reflexivity].
  - apply lang_literal. repeat constructor.
Qed.

Definition is_sane (x : symbol) : Prop := sane rec_names x = true.

Lemma all_symbols_sane : forall x, In x all_symbols -> is_sane x.
Proof.
  assert (X : forallb (sane rec_names) all_symbols = true) by (vm_compute; reflexivity).
  rewrite forallb_forall in X. exact X.
Qed.

Lemma sane_nonterminal x : is_sane x -> is_sane (as_nonterminal x) /\ is_nt (as_nonterminal x) = true.
Proof.
  intro S. destruct x; split; try exact S; try reflexivity.
  unfold is_sane in *. cbn [as_nonterminal as_rules]. cbn [sane forallb fst] in *. now rewrite S.
Qed.

Lemma sane_wf x : is_sane x -> @well_formed HG (as_nonterminal x).
Proof.
  intro S. destruct (sane_nonterminal S) as [S' N].
  apply (@sane_well_formed rec_rules rec_names http_rec_known http_rec_nullable http_rec_lang _ N S').
Qed.

(** Weaker: sets of octets may be empty. *)
Definition is_proper (x : symbol) : Prop := proper rec_names x = true.
Lemma sane_is_proper x : is_sane x -> is_proper x.
Proof. apply sane_proper. Qed.
Lemma proper_wf x : is_proper x -> @well_formed HG (as_nonterminal x).
Proof.
  intro S. assert (N : is_nt (as_nonterminal x) = true) by (destruct x; reflexivity).
  apply (@proper_well_formed rec_rules rec_names http_rec_known http_rec_nullable http_rec_lang _ N).
  destruct x; exact S || reflexivity.
Qed.

Lemma sane_productive x : is_sane x -> @productive HG (as_nonterminal x).
Proof.
  intro S. destruct (sane_nonterminal S) as [S' _].
  apply (@productive_all rec_rules rec_names http_rec_known http_rec_lang http_rec_sane _ S').
Qed.

(** Is the rule list of a symbol among those below the recursive ones? *)
Definition unnested (x : symbol) : bool :=
  match as_nonterminal x with
  | Simple i rs => if in_dec symbol_dec (Simple i rs) (rec_below rec_rules rec_names) then false else true
  | _ => false
  end.

Lemma unnested_ok x : is_sane x -> unnested x = true -> ~ @self_nested HG (as_nonterminal x).
Proof.
  intros S U. destruct (sane_nonterminal S) as [S' _]. unfold unnested in U.
  destruct (as_nonterminal x) as [|i rs| |] eqn:E; try discriminate.
  destruct (in_dec _ _ _) as [|NI] in U; [discriminate|].
  apply (@not_nested rec_rules rec_names http_rec_known http_rec_sane i rs); [|exact NI]. exact (sane_recs S').
Qed.

(** ** Reading *)

Section Reading.
(** The two functions that call the parser again: anything. *)
Variable nested : pyf -> list val -> val * list vcomplaint.
(** The annotated classes: any. *)
Variable annotated : val -> bool.
Notation pf := (pyfun nested).

(** [_inner_parse(data, x.as_nonterminal(), annotate_classes)] ends so. *)
Definition reads (x : symbol) (data : str) (p : @parsed HG (@presult val vcomplaint)) : Prop :=
  @returns HG presult p_leaf (@p_act rec_rules pf annotated) p_rep data (as_nonterminal x) p.

Notation M := (M rec_rules pf).

Lemma M_nonterminal x w v cs : M (as_nonterminal x) w v cs <-> M x w v cs.
Proof. destruct x; try reflexivity. cbn [as_nonterminal as_rules]. apply M_wrapped. Qed.

Lemma means_tree (x : symbol) (t : tree HG) : is_nt x = true -> @tree_of HG (Nt (x : nt HG)) t ->
  exists v cs, means rec_rules pf x (tree_yield t) v cs /\ meaning sem_leaf (sem_act (rec_rules:=rec_rules) pf) sem_rep 0 t = (v, cs).
Proof.
  intros N T. destruct (meaning sem_leaf (sem_act (rec_rules:=rec_rules) pf) sem_rep 0 t) as [v cs] eqn:E. exists v, cs. split; [|reflexivity].
  exists t. repeat split; auto. destruct x; try discriminate; exact T.
Qed.

Lemma reads_accepted x data r : reads x data (Accepted r) -> M x data (pr_node r) (pr_complaints r).
Proof.
  intro H. apply M_nonterminal. apply C02_result_is_meaning in H; [|apply rep_ok_all]. destruct H as [t [T [Y E]]].
  assert (N : is_nt (as_nonterminal x) = true) by (destruct x; reflexivity).
  destruct (means_tree N T) as [v [cs [H F]]]. pose proof (@forget_meaning rec_rules pf annotated t 0) as FM.
  rewrite F in FM. rewrite <- E in FM. unfold forget in FM. injection FM as -> ->. rewrite Y in H. exists cs. auto.
Qed.

Lemma reads_complete x data : is_proper x ->
  ((exists v cs, M x data v cs) -> exists r, reads x data (Accepted r)) /\
  (~ (exists v cs, M x data v cs) -> exists e, reads x data (Rejected e)).
Proof.
  intro S. destruct (@C01_parser_accepts_language HG presult p_leaf (@p_act rec_rules pf annotated) p_rep _ (proper_wf S) data) as [A B].
  assert (G : (exists v cs, M x data v cs) <-> @generates HG (as_nonterminal x) data).
  { assert (N : is_nt (as_nonterminal x) = true) by (destruct x; reflexivity). split.
    - intros [v [cs H]]. apply M_nonterminal in H. destruct H as [c [[t [T [Y _]]] _]].
      rewrite <- Y. apply tree_generates. destruct x; exact T.
    - intro D. apply generates_tree in D. destruct D as [t [T Y]].
      destruct (means_tree N T) as [v [cs [H _]]]. rewrite Y in H. exists v, cs. apply M_nonterminal. exists cs. auto. }
  split; intro H.
  - apply A, G, H.
  - apply B. intro X. apply H, G, X.
Qed.

End Reading.

(** [x] reads exactly the strings with a value and complaints as specified,
    and gives that value and those complaints, in some order.  (Where the
    specification is a function this fixes the result.) *)
Definition reads_as (x : symbol) (spec : str -> val -> list vcomplaint -> Prop) : Prop :=
  forall nested annotated data,
  ((exists v cs, spec data v cs) -> exists r, reads nested annotated x data (Accepted r)) /\
  (~ (exists v cs, spec data v cs) -> exists e, reads nested annotated x data (Rejected e)) /\
  (forall r, reads nested annotated x data (Accepted r) ->
     exists cs, spec data (pr_node r) cs /\ Permutation (pr_complaints r) cs).

Lemma reads_as_intro x (spec : str -> val -> list vcomplaint -> Prop) : is_proper x ->
  (forall nested w v cs, M rec_rules (pyfun nested) x w v cs <-> exists cs', spec w v cs' /\ Permutation cs cs') ->
  reads_as x spec.
Proof.
  intros S E nested annotated data. destruct (@reads_complete nested annotated x data S) as [A B]. repeat split.
  - intros [v [cs H]]. apply A. exists v, cs. apply E. eauto.
  - intros NH. apply B. intros [v [cs H]]. apply E in H. destruct H as [cs' [H _]]. eauto.
  - intros r H. apply reads_accepted in H. apply E in H. exact H.
Qed.

(** A text: the value is the string itself and there are no complaints. *)
Definition reads_text (x : symbol) (L : language) : Prop :=
  reads_as x (fun w v cs => L w /\ v = VStr w /\ cs = []).

Lemma reads_text_intro x L : is_proper x -> (forall nested, textual rec_rules (pyfun nested) x L) -> reads_text x L.
Proof.
  intros S T. apply reads_as_intro; [exact S|]. intros nested w v cs. rewrite (M_text (T nested)). split.
  - intros [H [-> ->]]. exists []. auto.
  - intros [cs' [[H [-> ->]] P]]. apply Permutation_sym, Permutation_nil in P. subst. auto.
Qed.
