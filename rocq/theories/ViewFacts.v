(** More about the values of some headers than their shapes tell: Pragma,
    Content-Disposition, Link, Warning. *)
From Coq Require Import ZifyBool ZifyNat ZifyN Permutation String.
From Verif Require Import Base Earley EarleySpec Parse Grammar GrammarSem GrammarLang GrammarWF GrammarVals GrammarExcl GrammarCalc GrammarRend
  Syntax Actions Reading HttpText SyntaxVals SyntaxLists Types Nested NestedTypes P_Types.
Open Scope nat_scope.
Open Scope list_scope.
Unset Strict Implicit.

(** ** Values of a symbol *)

Section Facts.
Variable nst : pyf -> list val -> val * list vcomplaint.
Notation pf := (pyfun nst).
Notation M := (M rec_rules pf).
Notation V := (V rec_rules pf).
Notation A := (A rec_rules pf).
Notation textual := (textual rec_rules pf).

Lemma M_typed nty x w v cs : (forall p ts vs, Forall2 has ts vs -> hasu (nty p ts) (fst (nst p vs))) -> M x w v cs -> hasu (infer nty rec_ty x) v.
Proof. intros Ok [cs' [H _]]. eapply typed; [exact Ok|exact H]. Qed.
Lemma M_shape x sh w v cs : forallb (inside sh) (infer any_ty rec_ty x) = true -> M x w v cs -> fits sh v.
Proof.
  intros C H. apply (M_typed (nty := any_ty)) in H; [|apply any_ok]. apply hasu_iff in H. destruct H as [t [It Ht]].
  eapply inside_ok; [|exact Ht]. exact (proj1 (forallb_forall _ _) C t It).
Qed.

(** The value of [f <<< x]; of [x * y]. *)
Lemma M_wrap f x w v cs : M (wrap f x) w v cs -> exists n c, V x w n c /\ (v = fst (call_func pf f n) \/ v = VSkip).
Proof.
  intro H. apply M_V in H. destruct H as [ns [H ->]]. apply V_wrap in H. destruct H as [n [c [u [c' [H [E [-> _]]]]]]].
  exists n, c. split; [exact H|]. rewrite E. cbn [fst]. unfold unskip. destruct (is_vskip u) eqn:S; [right; reflexivity|left; now rewrite collapse_one].
Qed.
Lemma values_in (e : symbol) ps v : Forall (part_ok (M e)) ps -> In v (@list_values val vcomplaint ps) -> exists w cs, M e w v cs.
Proof.
  intros F I. unfold list_values in I. apply in_flat_map in I. destruct I as [p [Ip I]]. rewrite Forall_forall in F. destruct (F p Ip) as [_ [_ O]].
  destruct (p_element p) as [[[w u] cs]|]; [|destruct I]. destruct I as [<-|[]]. eauto.
Qed.
Lemma comma_list1_in e w v cs : (forall w v cs, M e w v cs -> v <> VSkip /\ v <> VNone) -> M (comma_list1 e) w v cs ->
  exists l, v = VList l /\ Forall (fun u => exists w cs, M e w u cs) l.
Proof.
  intros Vis H. apply (comma_list1_M Vis) in H. destruct H as [cs' [[ps [_ [F [_ [_ [_ [-> _]]]]]]] _]]. eexists. split; [reflexivity|].
  apply Forall_forall. intros u I. eapply values_in; eassumption.
Qed.
Lemma comma_list_in e w v cs : (forall w v cs, M e w v cs -> v <> VSkip /\ v <> VNone) -> M (comma_list e) w v cs ->
  exists l, v = VList l /\ Forall (fun u => exists w cs, M e w u cs) l.
Proof.
  intros Vis H. apply (comma_list_M Vis) in H. destruct H as [cs' [[ps H] _]]. decompose [and] H. subst. eexists. split; [reflexivity|].
  apply Forall_forall. intros u I. eapply values_in; eassumption.
Qed.

(** A value that is an object. *)
Lemma object_visible (v : val) c l : v = VObj c l -> v <> VSkip /\ v <> VNone.
Proof. intros ->. split; discriminate. Qed.
Local Open Scope string_scope.
Local Open Scope list_scope.

(** ** Pragma *)

Definition pragma_ok (u : val) : Prop :=
  (exists t, u = VObj (s "CaseInsensitive") [VStr t] /\ map lower_c t = s "no-cache") \/ (exists x y, u = VObj (s "Parametrized") [x; y]).
Lemma literal_lower x w : Forall2 (same_c false) x w -> map lower_c w = map lower_c x.
Proof. induction 1 as [|c d x w H F IH]; [reflexivity|]. cbn [map]. rewrite IH. cbn in H. now rewrite H. Qed.
Lemma pragma_directive_ok w v cs : M pragma_directive w v cs -> pragma_ok v.
Proof.
  unfold pragma_directive, pivot_. rewrite M_seal. intro H. apply M_V in H. destruct H as [ns [H ->]]. apply V_alt in H. destruct H as [H|H].
  - apply V_wrap in H. destruct H as [n [c [u [c' [H [E [-> _]]]]]]]. apply (V_text (@textual_literal rec_rules pf false (s "no-cache"))) in H. destruct H as [L [-> _]].
    cbn in E. injection E as <- _. left. exists w. split; [reflexivity|]. apply literal_lower in L. exact L.
  - right. assert (Q : M (extension_pragma true) w (collapse ns) cs) by (apply M_V; eauto).
    apply (@M_shape _ (Make "Parametrized" [Text; Text or Nothing])) in Q; [|vm_compute; reflexivity].
    destruct Q as [[|x [|y [|]]] [E Q]]; cbn in Q; try tauto. eauto.
Qed.
Lemma pragma_means w v cs : M Pragma w v cs -> exists l, v = VList l /\ Forall pragma_ok l.
Proof.
  unfold Pragma, pivot_. rewrite M_seal. intro H. apply comma_list1_in in H.
  - destruct H as [l [-> F]]. exists l. split; [reflexivity|]. eapply Forall_impl; [|exact F]. intros u [w' [cs' K]]. now apply pragma_directive_ok in K.
  - intros w' u cs' K. apply pragma_directive_ok in K. destruct K as [[t [-> _]]|[x [y ->]]]; split; discriminate.
Qed.

(** ** Content-Disposition *)

Definition parm_ok (u : val) : Prop := exists k x, u = VTuple [VObj (s "CaseInsensitive") [VStr k]; x] /\ ((exists t, x = VStr t) \/ map lower_c k = s "filename*").
Lemma ci_A x L : textual x L -> forall w ns cs, A (wrap (class "CaseInsensitive") x) w ns cs -> L w /\ ns = [VObj (s "CaseInsensitive") [VStr w]].
Proof.
  intros T w ns cs H. apply A_node in H; [|apply eph1_eph; reflexivity]. destruct H as [v [H ->]]. apply M_V in H. destruct H as [n [H ->]].
  apply V_wrap in H. destruct H as [m [c [u [c' [H [E [-> _]]]]]]]. apply (V_text T) in H. destruct H as [L' [-> _]]. cbn in E. injection E as <- _. split; [exact L'|reflexivity].
Qed.
(** [name * skip(...) * value]. *)
Lemma named_value x L y z w ns cs : textual x L -> eph1 z = false -> V (seq2 (seq2 (wrap (class "CaseInsensitive") x) (skip y)) z) w ns cs ->
  exists k v w' cs', L k /\ M z w' v cs' /\ ns = VObj (s "CaseInsensitive") [VStr k] :: unskip v.
Proof.
  intros T Z H. apply V_seq in H. destruct H as [w1 [w2 [n1 [n2 [c1 [c2 [-> [-> [_ [H1 H2]]]]]]]]]]. apply A_eph in H1; [|reflexivity].
  apply V_seq in H1. destruct H1 as [w3 [w4 [n3 [n4 [c3 [c4 [-> [-> [_ [H3 H4]]]]]]]]]]. apply (ci_A T) in H3. destruct H3 as [Lk ->].
  apply A_skip' in H4. destruct H4 as [_ ->]. apply A_node in H2; [|exact Z]. destruct H2 as [v [H2 ->]]. exists w3, v, w2, c2. rewrite app_nil_r. auto.
Qed.
Lemma parm_means w v cs : M disposition_parm w v cs -> parm_ok v.
Proof.
  unfold disposition_parm, auto_. rewrite M_seal. intro H. apply M_V in H. destruct H as [ns [H ->]]. apply V_alt in H. destruct H as [H|H].
  - apply V_node in H; [|reflexivity]. destruct H as [u [H ->]]. unfold filename_parm, pivot_ in H. rewrite M_seal in H. apply M_V in H. destruct H as [ns [H ->]].
    apply V_alt in H. destruct H as [H|H].
    + apply (@named_value _ _ _ _ _ _ _ (@textual_literal rec_rules pf false (s "filename"))) in H; [|reflexivity]. destruct H as [k [x [w' [cs' [_ [Mx ->]]]]]].
      apply (@M_shape _ Text) in Mx; [|vm_compute; reflexivity]. destruct Mx as [t ->]. exists k, (VStr t). split; [reflexivity|]. left. eauto.
    + apply (@named_value _ _ _ _ _ _ _ (@textual_literal rec_rules pf false (s "filename*"))) in H; [|reflexivity]. destruct H as [k [x [w' [cs' [Lk [Mx ->]]]]]].
      apply (@M_shape _ ext_value_shape) in Mx; [|vm_compute; reflexivity]. destruct Mx as [l [-> _]]. eexists k, _. split; [reflexivity|]. right. apply literal_lower in Lk. exact Lk.
  - apply V_node in H; [|reflexivity]. destruct H as [u [H ->]]. unfold disp_ext_parm, pivot_ in H. rewrite M_seal in H. apply M_V in H. destruct H as [ns [H ->]].
    assert (T : textual (token__excluding ["filename"; "filename*"]) (excluding_lang (bits_of tchar) ([] :: map s ["filename"; "filename*"]))).
    { unfold token__excluding. apply (@string_excluding_textual rec_rules pf (Some (s "tchar"))). intros x c Ix Ic. revert x c Ix Ic.
      assert (Q : forallb (fun x => forallb (fun c => N.testbit (bits_of tchar) (lower_c c) && N.testbit (bits_of tchar) (upper_c c)) x) ([] :: map s ["filename"; "filename*"]) = true) by (vm_compute; reflexivity).
      intros x c Ix Ic. rewrite forallb_forall in Q. specialize (Q x Ix). rewrite forallb_forall in Q. specialize (Q c Ic). now apply andb_true_iff in Q. }
    apply (@named_value _ _ _ _ _ _ _ T) in H; [|reflexivity]. destruct H as [k [x [w' [cs' [_ [Mx ->]]]]]].
    apply (@M_shape _ Text) in Mx; [|vm_compute; reflexivity]. destruct Mx as [t ->]. exists k, (VStr t). split; [reflexivity|]. left. eauto.
Qed.
Lemma pieces_all (R : str -> val -> list vcomplaint -> Prop) w vs cs (P : val -> Prop) : (forall w v cs, R w v cs -> P v) -> pieces R w vs cs -> Forall P vs.
Proof. intros H F. induction F; constructor; eauto. Qed.
Lemma disposition_means w v cs : M content_disposition w v cs -> exists k l, v = VObj (s "Parametrized") [k; VObj (s "MultiDict") [VList l]] /\ Forall parm_ok l.
Proof.
  unfold content_disposition, pivot_. rewrite M_seal. intro H. apply M_V in H. destruct H as [ns [H ->]]. apply V_wrap in H. destruct H as [n [c [u [c' [H [E [-> _]]]]]]].
  apply V_seq in H. destruct H as [w1 [w2 [n1 [n2 [c1 [c2 [-> [-> [_ [H1 H2]]]]]]]]]].
  apply A_node in H1; [|reflexivity]. destruct H1 as [k [H1 ->]]. apply (@M_shape _ (P_Types.ci)) in H1; [|vm_compute; reflexivity]. destruct H1 as [kl [-> _]].
  apply A_node in H2; [|reflexivity]. destruct H2 as [d [H2 ->]]. apply M_V in H2. destruct H2 as [ns [H2 ->]]. apply V_wrap in H2. destruct H2 as [m [c3 [u' [c4 [H2 [E2 [-> _]]]]]]].
  apply V_many in H2. destruct H2 as [vs [cs' [F [-> _]]]]. cbn in E2. injection E2 as <- _. cbn in E. injection E as <- _.
  eexists _, vs. split; [reflexivity|]. apply pieces_all with (P := parm_ok) in F; [exact F|]. intros w3 v3 cs3 K. apply M_V in K. destruct K as [n3 [K ->]].
  apply V_seq in K. destruct K as [w4 [w5 [n4 [n5 [c5 [c6 [_ [-> [_ [K1 K2]]]]]]]]]]. apply A_skip' in K1. destruct K1 as [_ ->].
  apply A_node in K2; [|reflexivity]. destruct K2 as [v [K2 ->]]. apply parm_means in K2. destruct K2 as [k [x [-> Hx]]]. exists k, x. auto.
Qed.

(** ** Link *)

Definition relation_ok (u : val) : Prop :=
  exists c k x, u = VTuple [VObj c [VStr k]; x] /\ (map lower_c k = s "rel" -> (exists l, x = VList l) \/ (exists y, x = VUnavailable y)).
Definition link_ok (u : val) : Prop :=
  exists uri p, u = VObj (s "Parametrized") [uri; p] /\ (p = VBad \/ exists l, p = VObj (s "MultiDict") [VList l] /\ Forall relation_ok l).
End Facts.

Lemma relation_again nst again t n e : parses nst again ->
  (exists l, fst (parse_again again rel t n e) = VList l) \/ (exists y, fst (parse_again again rel t n e) = VUnavailable y).
Proof.
  intro P. unfold parse_again. destruct (again rel t) as [[v cs]|] eqn:E; cbn [fst]; [|right; eauto]. left.
  destruct (P _ _ _ _ E) as [ann [r [R [<- _]]]]. apply reads_accepted in R.
  apply (@M_shape _ _ (Many (Text or P_Types.ci))) in R; [|vm_compute; reflexivity]. destruct R as [l [-> _]]. eauto.
Qed.
Lemma process_relations nst again ps : parses nst again -> forall seen as_ r cs, process_params again seen as_ ps = Some (r, cs) -> Forall relation_ok r.
Proof.
  intro Ag. induction ps as [|p ps IH]; intros seen as_ r cs E; cbn [process_params] in E; [injection E as <- _; constructor|].
  destruct p as [| | | | | | | |l| | |]; try discriminate E. destruct l as [|k [|v2 [|]]]; try discriminate E; destruct k as [| | | | | | | | |c a| |]; try discriminate E;
    destruct a as [|[name| | | | | | | | | | |] [|]]; try discriminate E.
  destruct (existsb _ names_once && _).
  - destruct (process_params again seen as_ ps) as [[r' cs']|] eqn:R; [|discriminate]. injection E as <- <-. eapply IH. exact R.
  - destruct v2 as [| |  | | | | | |l'| | |]; try discriminate E.
    + destruct (if _ || _ then _ else _); [|discriminate]. destruct (link_param_syntax _) eqn:X; [discriminate|].
      destruct (process_params again _ as_ ps) as [[r' cs']|] eqn:R; [|discriminate]. injection E as <- <-.
      constructor; [|eapply IH; exact R]. exists c, name, VNone. split; [reflexivity|]. intro K. rewrite K in X. vm_compute in X. discriminate X.
    + destruct l' as [|[p| | | | | | | | | | |] [|[t| | | | | | | | | | |] [|]]]; try discriminate E.
      destruct (if _ || _ then _ else _); [|discriminate].
      destruct (link_param_syntax _) as [x|] eqn:X.
      * destruct (parse_again again x t _ _) as [v3 c3] eqn:P.
        destruct (process_params again _ (Some p) ps) as [[r' cs']|] eqn:R; [|discriminate]. injection E as <- <-.
        constructor; [|eapply IH; exact R]. exists c, name, v3. split; [reflexivity|]. intro K. rewrite K in X. assert (Y : x = rel) by (injection X as <-; reflexivity). subst x.
        lazymatch type of P with parse_again _ _ _ ?n ?e = _ => pose proof (@relation_again nst again t n e Ag) as Q end. rewrite P in Q. exact Q.
      * destruct (process_params again _ (Some p) ps) as [[r' cs']|] eqn:R; [|discriminate]. injection E as <- <-.
        constructor; [|eapply IH; exact R]. exists c, name, (VStr t). split; [reflexivity|]. intro K. rewrite K in X. vm_compute in X. discriminate X.
Qed.

Section Link.
Variable nst : pyf -> list val -> val * list vcomplaint.
Variable again : symbol -> str -> option (val * list vcomplaint).
Hypothesis Ag : parses nst again.
Notation pf := (pyfun (nested again)).
Notation M := (M rec_rules pf).

Lemma link_value_ok w v cs : M link_value w v cs -> link_ok v.
Proof.
  unfold link_value, pivot_. rewrite M_seal. intro H. apply M_V in H. destruct H as [ns [H ->]]. apply V_wrap in H. destruct H as [n [c [u [c' [H [E [-> _]]]]]]].
  apply V_seq in H. destruct H as [w1 [w2 [n1 [n2 [c1 [c2 [-> [-> [_ [H1 H2]]]]]]]]]].
  apply A_eph in H1; [|reflexivity]. apply V_seq in H1. destruct H1 as [w3 [w4 [n3 [n4 [c3 [c4 [-> [-> [_ [H3 H4]]]]]]]]]].
  apply A_skip' in H4. destruct H4 as [_ ->]. apply A_eph in H3; [|reflexivity]. apply V_seq in H3. destruct H3 as [w5 [w6 [n5 [n6 [c5 [c6 [-> [-> [_ [H5 H6]]]]]]]]]].
  apply A_skip' in H5. destruct H5 as [_ ->]. apply A_node in H6; [|reflexivity]. destruct H6 as [uri [H6 ->]]. apply (@M_shape _ _ Text) in H6; [|vm_compute; reflexivity]. destruct H6 as [t ->].
  assert (X : exists p, n2 = unskip p /\ (p = VBad \/ exists l, p = VObj (s "MultiDict") [VList l] /\ Forall relation_ok l)).
  { assert (H2' : GrammarCalc.V rec_rules pf (wrap (FPy PProcessParams) (many (seq2 (skip (seq2 (seq2 OWS (lit ";")) OWS)) link_param))) w2 n2 c2) by (apply A_eph in H2; [exact H2|reflexivity]).
    apply V_wrap in H2'. destruct H2' as [m [c7 [p [c8 [H [Ep [-> _]]]]]]]. exists p. split; [reflexivity|].
    apply V_many in H. destruct H as [vs [cs' [_ [-> _]]]]. cbn [call_func pyfun nested] in Ep.
    destruct (process_params again [] None vs) as [[r cs1]|] eqn:PP; injection Ep as <- _; [right|now left].
    exists r. split; [reflexivity|]. eapply process_relations; eassumption. }
  destruct X as [p [-> Hp]]. assert (NS : unskip p = [p]) by (destruct Hp as [->|[l [-> _]]]; reflexivity). rewrite NS in E. cbn in E. injection E as <- _.
  exists (VStr t), p. split; [reflexivity|exact Hp].
Qed.
Lemma link_means w v cs : M Link w v cs -> exists l, v = VList l /\ Forall link_ok l.
Proof.
  unfold Link, pivot_. rewrite M_seal. intro H. apply comma_list_in in H.
  - destruct H as [l [-> F]]. exists l. split; [reflexivity|]. eapply Forall_impl; [|exact F]. intros u [w' [cs' K]]. now apply link_value_ok in K.
  - intros w' u cs' K. apply link_value_ok in K. destruct K as [x [y [-> _]]]; split; discriminate.
Qed.
End Link.

(** ** Warning *)

Definition warning_ok (u : val) : Prop :=
  exists x l z, u = VObj (s "WarningValue") (VObj (s "WarnCode") [VStr x] :: l) /\ int_of x = VInt z.

(** Types of strings of digits; of warn codes; of warning values. *)
Definition digits_type (t : ty) : bool := match t with TStr b (Datatypes.S _) _ => only_digits b | _ => false end.
Definition code_type (t : ty) : bool :=
  match t with TObj c [ts] => str_eqb c (s "WarnCode") && forallb digits_type ts | _ => false end.
Definition warning_type (t : ty) : bool :=
  match t with TObj c (ts :: _) => str_eqb c (s "WarningValue") && forallb code_type ts | _ => false end.
Lemma among_types (f : ty -> bool) ts v : forallb f ts = true -> hasu ts v -> exists t, f t = true /\ has t v.
Proof. intros F H. apply hasu_iff in H. destruct H as [t [I H]]. exists t. split; [exact (proj1 (forallb_forall _ _) F t I)|exact H]. Qed.
Lemma digits_type_ok t v : digits_type t = true -> has t v -> exists x z, v = VStr x /\ int_of x = VInt z.
Proof.
  intros C H. destruct t as [|b [|lo] hi| | | | | | | | | | | |]; try discriminate C. destruct H as [x [-> [F [L _]]]]. cbn [digits_type] in C.
  assert (D : has TInt (int_of x)).
  { apply int_of_has; [destruct x; [cbn in L; lia|discriminate]|]. eapply Forall_impl; [|exact F]. intros c K. eapply only_digits_ok; eassumption. }
  destruct D as [z [E _]]. eauto.
Qed.
Lemma code_type_ok t v : code_type t = true -> has t v -> exists x z, v = VObj (s "WarnCode") [VStr x] /\ int_of x = VInt z.
Proof.
  intros C H. destruct t as [| | | | | | | | | | |c [|ts [|]]| |]; try discriminate C. apply andb_prop in C. destruct C as [C D]. apply str_eqb_eq in C. subst c.
  apply has_obj in H. destruct H as [l [-> F]]. inversion F as [|? v ? l' H1 H2]; subst. inversion H2; subst.
  destruct (among_types D H1) as [t [T K]]. destruct (digits_type_ok T K) as [x [z [-> E]]]. eauto.
Qed.
Lemma warning_type_ok t v : warning_type t = true -> has t v -> warning_ok v.
Proof.
  intros C H. destruct t as [| | | | | | | | | | |c [|ts tss]| |]; try discriminate C. apply andb_prop in C. destruct C as [C D]. apply str_eqb_eq in C. subst c.
  apply has_obj in H. destruct H as [l [-> F]]. inversion F as [|? v ? l' H1 H2]; subst.
  destruct (among_types D H1) as [t [T K]]. destruct (code_type_ok T K) as [x [z [-> E]]]. exists x, l', z. split; [reflexivity|exact E].
Qed.
Lemma warning_means nst w v cs : GrammarCalc.M rec_rules (pyfun nst) Warning_ w v cs -> exists l, v = VList l /\ Forall warning_ok l.
Proof.
  intro H. apply (M_typed (nty := any_ty)) in H; [|apply any_ok].
  assert (C : forallb (fun t => match t with TList _ es => forallb warning_type es | _ => false end) (infer any_ty rec_ty Warning_) = true) by (vm_compute; reflexivity).
  destruct (among_types C H) as [t [T K]]. destruct t as [| | | | | | | | |ne es| | | |]; try discriminate T. apply has_list in K. destruct K as [l [-> [_ F]]].
  exists l. split; [reflexivity|]. eapply Forall_impl; [|exact F]. intros u U. destruct (among_types T U) as [t [T' K]]. eapply warning_type_ok; eassumption.
Qed.
