(** Types of what the nested calls of the parser return. *)
From Coq Require Import ZifyBool ZifyNat ZifyN String.
From Verif Require Import Base Earley Parse Grammar GrammarSem GrammarVals Syntax Actions Types Nested.
Open Scope nat_scope.
Open Scope list_scope.
Unset Strict Implicit.

(** Nothing known about nested calls: symbols without them. *)
Definition any_ty (p : pyf) (ts : list ty) : list ty := [TAny].
Lemma any_ok nst p ts vs : Forall2 has ts vs -> hasu (any_ty p ts) (fst (nst p vs : val * list vcomplaint)).
Proof. intros _. left. exact I. Qed.

Definition typed_reader (nty : pyf -> list ty -> list ty) (read : symbol -> str -> option (val * list vcomplaint)) : Prop :=
  forall x w v cs, read x w = Some (v, cs) -> hasu (infer nty rec_ty x) v.

Definition link_symbols : list symbol := [URI_reference; rel; hreflang; type_8288; ext_value].
Definition link_values : list ty := TUnav :: joins (map (infer any_ty rec_ty) link_symbols).
Lemma tail_joins {A} (f : A -> list ty) x xs t v : In x xs -> hasu (t :: f x) v -> hasu (t :: joins (map f xs)) v.
Proof.
  intros Ix [H|H]; [left; exact H|]. right. apply joins_in with (ts := f x); [|exact H]. apply in_map. exact Ix.
Qed.
Lemma link_values_ok x v : In x link_symbols -> hasu (TUnav :: infer any_ty rec_ty x) v -> hasu link_values v.
Proof. exact (@tail_joins symbol (infer any_ty rec_ty) x link_symbols TUnav v). Qed.
Opaque link_values.
Definition texts_in (vals : list ty) : list ty :=
  flat_map (fun t => match t with TTuple [_; tx] => tx | TAny => [TAny] | _ => [] end) vals.
Definition nested_ty (p : pyf) (ts : list ty) : list ty :=
  match p, ts with
  | PCheckAltAuthority, [t] =>
      match as_str t with Some _ => TUnav :: infer any_ty rec_ty alt_authority_inner | None => [TAny] end
  | PProcessParams, [TList _ [TTuple [nm; vals]]] =>
      [TBad; TObj (s "MultiDict") [[TList false [TTuple [nm; TNone :: texts_in vals ++ link_values]]]]]
  | _, _ => [TAny]
  end.

Section Read.
Variable read : symbol -> str -> option (val * list vcomplaint).
Hypothesis typed_read : typed_reader any_ty read.

Lemma parse_again_ok x w n e : hasu (TUnav :: infer any_ty rec_ty x) (fst (parse_again read x w n e)).
Proof.
  unfold parse_again. destruct (read x w) as [[v cs]|] eqn:E; cbn [fst].
  - right. eapply typed_read. exact E.
  - left. eexists. reflexivity.
Qed.

Lemma link_syntax_in n x : link_param_syntax n = Some x -> In x link_symbols.
Proof.
  unfold link_param_syntax. repeat (destruct (str_eqb n _); [intro H; injection H as <-; unfold link_symbols; cbn [In]; tauto|]). discriminate.
Qed.

Lemma process_params_ok nm vals params :
  Forall (has (TTuple [nm; vals])) params -> forall seen pa r cs, process_params read seen pa params = Some (r, cs) ->
  Forall (has (TTuple [nm; TNone :: texts_in vals ++ link_values])) r.
Proof.
  induction 1 as [|v params H F IH]; intros seen pa r cs E; [injection E as <- <-; constructor|].
  apply has_tuple in H. destruct H as [l [-> F2]]. inversion F2 as [|? v1 ? l1 H1 F3]; subst. inversion F3 as [|? v2 ? l2 H2 F4]; subst. inversion F4; subst. clear F2 F3 F4.
  cbn [process_params] in E. destruct v1 as [| | | | | | | | |c a| |]; try discriminate E. destruct a as [|[name| | | | | | | | | | |] [|]]; try discriminate E.
  destruct (existsb _ names_once && _).
  - destruct (process_params read seen pa params) as [[r' cs']|] eqn:R; [|discriminate]. injection E as <- <-. eapply IH. exact R.
  - assert (Z1 : forall v, hasu link_values v -> hasu (TNone :: texts_in vals ++ link_values) v).
    { intros v Hv. apply hasu_incl with link_values; [|exact Hv]. intros. right. apply in_app_iff. now right. }
    destruct v2 as [| |  | | | | | |l'| | |]; try discriminate E.
    + destruct (if _ || _ then _ else _); [|discriminate]. destruct (link_param_syntax _); [discriminate|].
      destruct (process_params read _ pa params) as [[r' cs']|] eqn:R; [|discriminate]. injection E as <- <-.
      constructor; [|eapply IH; exact R]. apply has_tuple. eexists. split; [reflexivity|]. constructor; [exact H1|]. constructor; [|constructor]. left. reflexivity.
    + destruct l' as [|[p| | | | | | | | | | |] [|[t| | | | | | | | | | |] [|]]]; try discriminate E.
      destruct (if _ || _ then _ else _); [|discriminate].
      destruct (link_param_syntax _) as [x|] eqn:X.
      * destruct (parse_again read x t _ _) as [v3 c3] eqn:P. assert (Q : hasu (TUnav :: infer any_ty rec_ty x) (fst (v3, c3))) by (rewrite <- P; apply parse_again_ok). cbn [fst] in Q.
        destruct (process_params read _ (Some p) params) as [[r' cs']|] eqn:R; [|discriminate]. injection E as <- <-.
        constructor; [|eapply IH; exact R]. apply has_tuple. eexists. split; [reflexivity|]. constructor; [exact H1|]. constructor; [|constructor]. apply Z1.
        apply link_values_ok with x; [|exact Q]. now apply link_syntax_in with (map lower_c name).
      * destruct (process_params read _ (Some p) params) as [[r' cs']|] eqn:R; [|discriminate]. injection E as <- <-.
        constructor; [|eapply IH; exact R]. apply has_tuple. eexists. split; [reflexivity|]. constructor; [exact H1|]. constructor; [|constructor].
        apply hasu_iff in H2. destruct H2 as [ty0 [It Ht]].
        destruct ty0; try (cbn in Ht; try discriminate Ht; destruct Ht as [? [Q ?]]; discriminate Q); try (cbn in Ht; destruct Ht as [? Q]; discriminate Q).
        -- right. apply hasu_iff. exists TAny. split; [|exact I]. apply in_app_iff. left. apply in_flat_map. exists TAny. split; [exact It|now left].
        -- apply has_tuple in Ht. destruct Ht as [l [Q F2]]. injection Q as <-. inversion F2 as [|? ? ? ? A1 F3]; subst. inversion F3 as [|tx ? ? ? A2 F4]; subst. inversion F4; subst.
           right. apply hasu_iff in A2. destruct A2 as [t2 [I2 Ht2]]. apply hasu_iff. exists t2. split; [|exact Ht2]. apply in_app_iff. left. apply in_flat_map. eexists. split; [exact It|exact I2].
Qed.

Lemma nested_ok p ts vs : Forall2 has ts vs -> hasu (nested_ty p ts) (fst (nested read p vs)).
Proof.
  intro F. assert (Z0 : hasu [TAny] (fst (nested read p vs))) by (left; exact I). destruct p; try exact Z0.
  - cbn [nested_ty]. destruct ts as [|t [|]]; try exact Z0. destruct (as_str t) as [pr|] eqn:E; [|exact Z0].
    inversion F as [|? v ? ? H F2]; subst. inversion F2; subst. destruct (str_has E H) as [x [-> _]]. cbn [nested]. apply parse_again_ok.
  - destruct ts as [|t ts]; [exact Z0|]. destruct t; try exact Z0. destruct elts as [|t elts]; [exact Z0|]. destruct t; try exact Z0. destruct args as [|nm [|vals [|]]]; try exact Z0.
    destruct elts; [|exact Z0]. destruct ts; [|exact Z0]. inversion F as [|? v ? ? H F2]; subst. inversion F2; subst. apply has_list in H. destruct H as [l [-> [_ L]]].
    cbn [nested nested_ty]. destruct (process_params read [] None l) as [[r cs]|] eqn:E; cbn [fst]; [|left; reflexivity].
    right. left. apply has_obj. eexists. split; [reflexivity|]. constructor; [|constructor]. apply hasu_one, has_list. exists r. split; [reflexivity|]. split; [discriminate|].
    assert (L' : Forall (has (TTuple [nm; vals])) l) by (eapply Forall_impl; [|exact L]; intros v Hv; apply hasu_one; exact Hv).
    pose proof (process_params_ok L' E) as R. eapply Forall_impl; [|exact R]. intros v Hv. apply hasu_one. exact Hv.
Qed.
End Read.
