(** Every grammar built with the combinators satisfies the conditions of the
    parser's theorems: finitely many symbols are reachable, the nullability
    test ends, and repetitions have the expected form. *)
From Coq Require Import ZifyBool ZifyNat ZifyN.
From Verif Require Import Base Earley EarleySpec EarleyChart EarleyItems EarleyMain Grammar GrammarSem GrammarLang P_Earley.
Open Scope nat_scope.
Unset Strict Implicit.

(** ** Induction on symbols *)

Section Ind.
Variable P : symbol -> Prop.
Hypothesis HT : forall n b, P (Term n b).
Hypothesis HS : forall i rs, Forall (fun r : rule => Forall P (fst r)) rs -> P (Simple i rs).
Hypothesis HR : forall i m y, P y -> P (Repeated i m y).
Hypothesis HC : forall n, P (Rec n).

Fixpoint symbol_ind' (x : symbol) : P x :=
  match x with
  | Term n b => HT n b
  | Simple i rs =>
      HS i ((fix rules (rs : list rule) : Forall (fun r : rule => Forall P (fst r)) rs :=
               match rs with
               | [] => Forall_nil _
               | r :: rs' =>
                   Forall_cons r
                     ((fix syms (l : list symbol) : Forall P l :=
                         match l with
                         | [] => Forall_nil _
                         | y :: l' => Forall_cons y (symbol_ind' y) (syms l')
                         end) (fst r))
                     (rules rs')
               end) rs)
  | Repeated i m y => HR i m (symbol_ind' y)
  | Rec n => HC n
  end.
End Ind.

(** ** Size *)

Fixpoint size (x : symbol) : nat :=
  match x with
  | Simple _ rs => S (list_sum (map (fun r => list_sum (map size (fst r))) rs))
  | Repeated _ m y => S (size y + match m with Some k => k | None => 0 end)
  | _ => 1
  end.

Lemma list_sum_in x l : In x l -> x <= list_sum l.
Proof. induction l as [|y l IH]; simpl; [easy|]. intros [->|H]; [lia|]. specialize (IH H). lia. Qed.

Lemma size_pos x : 1 <= size x.
Proof. destruct x; cbn [size]; lia. Qed.

Lemma size_sub i rs (r : rule) y : In r rs -> In y (fst r) -> size y < size (Simple i rs).
Proof.
  intros I1 I2. cbn [size].
  assert (A : list_sum (map size (fst r)) <= list_sum (map (fun r : rule => list_sum (map size (fst r))) rs)).
  { apply list_sum_in. now apply (in_map (fun r : rule => list_sum (map size (fst r)))). }
  assert (B : size y <= list_sum (map size (fst r))) by (apply list_sum_in; now apply in_map).
  unfold rule in *. lia.
Qed.

Lemma size_group x : size (group x) = size x.
Proof. destruct x as [|i rs| |]; cbn [group]; try reflexivity. now destruct (info_ephemeral i). Qed.

Lemma as_rule_size x y : In y (fst (as_rule x)) -> size y <= size x.
Proof.
  destruct x as [|i [|r [|r' rs]]| |]; cbn [as_rule]; try (intros [<-|[]]; lia).
  destruct (info_ephemeral i); [|intros [<-|[]]; lia].
  intro I. apply Nat.lt_le_incl. eapply size_sub; [left; reflexivity|exact I].
Qed.

Lemma as_rules_size x r y : In r (as_rules x) -> In y (fst r) -> size y <= size x.
Proof.
  destruct x as [|i rs| |]; cbn [as_rules]; try (intros [<-|[]]; intros [<-|[]]; lia).
  destruct (info_ephemeral i); [|intros [<-|[]]; intros [<-|[]]; lia].
  intros I1 I2. apply Nat.lt_le_incl. eapply size_sub; eauto.
Qed.

(** The rules of a bounded repetition. *)
Lemma repeated_bounded_rules i m y (r : rule) :
  In r (repeated_rules i (Some m) y) ->
  fst r = [] \/
  match m with
  | S (S m') => fst r = fst (as_rule y) ++ [Repeated (Info None false (Some false)) (Some (S m')) y]
  | _ => exists r0, In r0 (as_rules y) /\ fst r = fst r0
  end.
Proof.
  unfold repeated_rules.
  assert (A : forall f x, as_rules (alt (wrap (FSubst (VList [])) empty) (wrap f x))
            = ([], AWrap (FSubst (VList [])) ANone) :: as_rules (wrap f x)) by reflexivity.
  assert (W : forall f x, is_class f = false -> as_rules (wrap f x) = map (rule_wrap f) (as_rules x)).
  { intros f x E. unfold wrap. rewrite E. reflexivity. }
  destruct m as [|[|m']]; rewrite A, W by reflexivity; intros [<-|I]; auto; apply in_map_iff in I;
    destruct I as [r0 [<- I]]; right; cbn [rule_wrap fst].
  - eauto.
  - eauto.
  - unfold seq2 in I. cbn [as_rules info_ephemeral anon i_eph i_name] in I. destruct I as [<-|[]]. reflexivity.
Qed.

Lemma repeated_bounded_size i m y r z :
  In r (repeated_rules i (Some m) y) -> In z (fst r) -> size z < size (Repeated i (Some m) y).
Proof.
  intros I1 I2. apply repeated_bounded_rules in I1. cbn [size].
  destruct I1 as [E|I1]; [rewrite E in I2; contradiction|].
  destruct m as [|[|m']].
  - destruct I1 as [r0 [I E]]. rewrite E in I2. pose proof (as_rules_size I I2). lia.
  - destruct I1 as [r0 [I E]]. rewrite E in I2. pose proof (as_rules_size I I2). lia.
  - rewrite I1 in I2. apply in_app_iff in I2. destruct I2 as [I2|[<-|[]]].
    + pose proof (as_rule_size I2). lia.
    + cbn [size]. lia.
Qed.

Section WF.
Variable rec_rules : str -> list rule.
Notation G := (sgrammar rec_rules).

Lemma to_sym_nt z (B : symbol) : to_sym z = Nt B -> z = B.
Proof. destruct z; cbn [to_sym]; congruence. Qed.

Lemma rep_rule_bounded i m y (r : rule) :
  In r (repeated_rules i (Some m) y) -> rep_rule (Repeated i (Some m) y : nt G) (r : rl G) = false.
Proof.
  intro I. unfold rep_rule. cbn [g_rep sgrammar is_repeated andb g_rhs nt_dec].
  destruct (fst r) as [|z l] eqn:E; [reflexivity|]. cbn [map].
  destruct (to_sym z) as [|B] eqn:Ez; [reflexivity|]. apply to_sym_nt in Ez. subst B.
  assert (S1 : size z < size (Repeated i (Some m) y)) by (eapply repeated_bounded_size; [exact I|rewrite E; simpl; auto]).
  destruct (symbol_dec _ _) as [X|]; [|reflexivity]. rewrite X in S1. lia.
Qed.

(** Repetitions are as the parser expects them. *)
Lemma rep_ok_all : @rep_ok G.
Proof.
  intros A r I RR. destruct A as [n b|i rs|i m y|n]; try (unfold rep_rule in RR; discriminate).
  destruct m as [m|]; [change (In (r : rule) (repeated_rules i (Some m) y)) in I; rewrite rep_rule_bounded in RR by exact I; discriminate|].
  cbn [g_rules sgrammar rules_of] in I |- *. rewrite rules_repeated in I |- *. destruct I as [<-|[<-|[]]].
  - discriminate.
  - split; [|split].
    + exists (to_sym (group y)). reflexivity.
    + eexists. split; [left; reflexivity|reflexivity].
    + intros r' [<-|[<-|[]]]; auto.
Qed.

(** ** Reachable symbols *)

(** Everything that can be met below a symbol, not looking into recursive
    symbols. *)
Definition again (y : symbol) (m : option nat) : list symbol :=
  map (fun k => Repeated (Info None false (Some false)) (Some k) y)
      (match m with Some k => seq 0 k | None => [] end).
Fixpoint below (x : symbol) : list symbol :=
  x :: match x with
       | Simple _ rs => flat_map (fun r => flat_map below (fst r)) rs
       | Repeated _ m y => group y :: below y ++ again y m
       | _ => []
       end.

Lemma below_self x : In x (below x).
Proof. destruct x; simpl; auto. Qed.

Lemma below_rule i rs (r : rule) y z : In r rs -> In y (fst r) -> In z (below y) -> In z (below (Simple i rs)).
Proof.
  intros I1 I2 I3. cbn [below]. right. apply in_flat_map. exists r. split; [exact I1|].
  apply in_flat_map. eauto.
Qed.

Lemma as_rules_below x r y : In r (as_rules x) -> In y (fst r) -> In y (below x).
Proof.
  destruct x as [|i rs| |]; cbn [as_rules]; try (intros [<-|[]]; intros [<-|[]]; apply below_self).
  destruct (info_ephemeral i); [|intros [<-|[]]; intros [<-|[]]; apply below_self].
  intros I1 I2. eapply below_rule; eauto. apply below_self.
Qed.

Lemma as_rule_below x y : In y (fst (as_rule x)) -> In y (below x).
Proof.
  destruct x as [|i [|r [|r' rs]]| |]; cbn [as_rule]; try (intros [<-|[]]; apply below_self).
  destruct (info_ephemeral i); [|intros [<-|[]]; apply below_self].
  intro I. eapply below_rule; [left; reflexivity|exact I|apply below_self].
Qed.

Lemma again_in y m k : In (Repeated (Info None false (Some false)) (Some k) y) (again y m) <-> exists n, m = Some n /\ k < n.
Proof.
  unfold again. rewrite in_map_iff. split.
  - intros [j [E I]]. injection E as ->. destruct m as [n|]; [|contradiction]. apply in_seq in I. exists n. split; [reflexivity|lia].
  - intros [n [-> L]]. exists k. split; [reflexivity|]. apply in_seq. lia.
Qed.

Definition not_rec (x : symbol) : bool := match x with Rec _ => false | _ => true end.

Lemma bounded_children i m y r z : In r (repeated_rules i (Some m) y) -> In z (fst r) ->
  In z (below y) \/ exists k, k < m /\ z = Repeated (Info None false (Some false)) (Some k) y.
Proof.
  intros I1 I2. apply repeated_bounded_rules in I1. destruct I1 as [E|I1]; [rewrite E in I2; contradiction|].
  destruct m as [|[|m']].
  - destruct I1 as [r0 [I E]]. rewrite E in I2. left. eapply as_rules_below; eauto.
  - destruct I1 as [r0 [I E]]. rewrite E in I2. left. eapply as_rules_below; eauto.
  - rewrite I1 in I2. apply in_app_iff in I2. destruct I2 as [I2|[<-|[]]].
    + left. now apply as_rule_below.
    + right. exists (S m'). split; [lia|reflexivity].
Qed.

Lemma below_closed x : forall z r y, In z (below x) -> not_rec z = true -> In r (rules_of rec_rules z) -> In y (fst r) -> In y (below x).
Proof.
  induction x as [n b|i rs IH|i m y0 IH|n] using symbol_ind'; intros z r y Iz NR Ir Iy.
  - destruct Iz as [<-|[]]. contradiction.
  - destruct Iz as [<-|Iz].
    + eapply below_rule; eauto. apply below_self.
    + apply in_flat_map in Iz. destruct Iz as [r0 [I0 Iz]]. apply in_flat_map in Iz. destruct Iz as [y1 [I1 Iz]].
      rewrite Forall_forall in IH. specialize (IH _ I0). rewrite Forall_forall in IH. specialize (IH _ I1).
      eapply below_rule; eauto.
  - assert (Sub : forall z, In z (below y0) -> In z (below (Repeated i m y0))).
    { intros z0 I0. cbn [below]. right. right. apply in_app_iff. auto. }
    assert (Ag : forall k n, m = Some n -> k < n -> In (Repeated (Info None false (Some false)) (Some k) y0) (below (Repeated i m y0))).
    { intros k n -> L. cbn [below]. right. right. apply in_app_iff. right. apply again_in. eauto. }
    destruct Iz as [<-|[<-|Iz]].
    + cbn [rules_of] in Ir. destruct m as [m|].
      * destruct (bounded_children Ir Iy) as [H|[k [L ->]]]; [now apply Sub|eapply Ag; eauto].
      * rewrite rules_repeated in Ir. destruct Ir as [<-|[<-|[]]]; [contradiction|].
        destruct Iy as [<-|[<-|[]]]; cbn [below]; [left; reflexivity|right; left; reflexivity].
    + apply Sub. eapply IH with (z := y0); [apply below_self| | |exact Iy].
      * destruct y0; auto.
      * destruct y0 as [|i0 rs0| |]; cbn [group] in Ir; try exact Ir. now destruct (info_ephemeral i0).
    + apply in_app_iff in Iz. destruct Iz as [Iz|Iz]; [apply Sub; eapply IH; eauto|].
      assert (Ez : exists k, z = Repeated (Info None false (Some false)) (Some k) y0).
      { unfold again in Iz. apply in_map_iff in Iz. destruct Iz as [k [<- _]]. eauto. }
      destruct Ez as [k ->]. apply again_in in Iz. destruct Iz as [n [-> L]]. cbn [rules_of] in Ir.
      destruct (bounded_children Ir Iy) as [H|[k' [L' ->]]]; [now apply Sub|]. eapply Ag; [reflexivity|lia].
  - destruct Iz as [<-|[]]. discriminate.
Qed.

(** ** Recursive symbols *)

(** [names] are the recursive symbols that occur in the rules of recursive
    symbols. *)
Variable names : list str.
Definition rec_below : list symbol := flat_map (fun n => flat_map (fun r : rule => flat_map below (fst r)) (rec_rules n)) names.
(** The recursive symbols below [x] are among [names]. *)
Definition recs_known (x : symbol) : Prop := forall n, In (Rec n) (below x) -> In n names.
Hypothesis rec_known : forall n, In (Rec n) rec_below -> In n names.

Definition reachable (x : symbol) : list symbol := below x ++ rec_below.

Lemma reachable_closed x : recs_known x -> @closed G (reachable x).
Proof.
  intros K A r B IA Ir IB. cbn [g_rules g_rhs sgrammar] in Ir, IB. apply in_map_iff in IB.
  destruct IB as [y [E Iy]]. apply to_sym_nt in E. subst y. unfold reachable in *. rewrite in_app_iff in *.
  destruct (not_rec A) eqn:NR.
  - destruct IA as [IA|IA]; [left; eapply below_closed; eauto|right].
    unfold rec_below in *. apply in_flat_map in IA. destruct IA as [n [In_ IA]]. apply in_flat_map in IA.
    destruct IA as [r0 [I0 IA]]. apply in_flat_map in IA. destruct IA as [z [Iz IA]].
    apply in_flat_map. exists n. split; [exact In_|]. apply in_flat_map. exists r0. split; [exact I0|].
    apply in_flat_map. exists z. split; [exact Iz|]. eapply below_closed; eauto.
  - destruct A as [| | |n]; try discriminate. right.
    assert (Hn : In n names) by (destruct IA as [IA|IA]; [now apply K|now apply rec_known]).
    unfold rec_below. apply in_flat_map. exists n. split; [exact Hn|]. apply in_flat_map. exists r. split; [exact Ir|].
    apply in_flat_map. exists B. split; [exact Iy|apply below_self].
Qed.

Lemma finite_from_all x : recs_known x -> @finite_from G x.
Proof.
  intro K. exists (reachable x). split; [|now apply reachable_closed].
  unfold reachable. apply in_app_iff. left. apply below_self.
Qed.

Lemma reach_reachable x : recs_known x -> forall y, @reach G x y -> In y (reachable x).
Proof.
  intros K y R. induction R as [|B r C R IH Ir IC].
  - unfold reachable. apply in_app_iff. left. apply below_self.
  - eapply (reachable_closed K); eauto.
Qed.

(** ** The nullability test *)

(** It ends on recursive symbols. *)
Hypothesis rec_nullable : forall n, In n names -> exists f b, @is_nullable G f (Rec n) = Done b.

Lemma nullable_rules f (A : nt G) :
  (forall r B, In r (g_rules A) -> In (Nt B) (g_rhs r) -> exists b, is_nullable f B = Done b) ->
  exists b, is_nullable (S f) A = Done b.
Proof.
  intro H. cbn [is_nullable]. revert H. induction (g_rules A) as [|r rs IH]; intro H; [eauto|].
  assert (X : forall ss, (forall B, In (Nt B) ss -> exists b, is_nullable f B = Done b) ->
    exists b, (fix all_syms (ss : list (sym (nt G))) : out bool :=
                   match ss with
                   | [] => Done true
                   | Tm _ :: _ => Done false
                   | Nt B :: ss' =>
                       obind (is_nullable f B)
                             (fun b => if b then all_syms ss' else Done false)
                   end) ss = Done b).
  { clear. induction ss as [|[b|B] ss IH]; intro H; [eauto|eauto|].
    destruct (H B) as [b ->]; [simpl; auto|]. cbn [obind]. destruct b; [|eauto].
    apply IH. intros B' I. apply H. simpl. auto. }
  destruct (X (g_rhs r)) as [b ->]. { intros B I. eapply H; [left; reflexivity|exact I]. }
  cbn [obind]. destruct b; [eauto|]. apply IH. intros r' B I1 I2. eapply H; [right; exact I1|exact I2].
Qed.

Lemma nullable_common (l : list (nt G)) :
  (forall B, In B l -> exists f b, is_nullable f B = Done b) ->
  exists f, forall B, In B l -> exists b, is_nullable f B = Done b.
Proof.
  induction l as [|B l IH]; intro H; [exists 0; intros B []|].
  destruct IH as [f F]. { intros B' I. apply H. simpl. auto. }
  destruct (H B) as [g [b Gb]]; [simpl; auto|].
  exists (f + g). intros B' [<-|I].
  - exists b. eapply nullable_mono; [exact Gb|lia].
  - destruct (F B' I) as [b' F']. exists b'. eapply nullable_mono; [exact F'|lia].
Qed.

Lemma nullable_first_empty (A : nt G) r rs : g_rules A = r :: rs -> g_rhs r = [] -> is_nullable 1 A = Done true.
Proof. intros E1 E2. cbn [is_nullable]. rewrite E1, E2. reflexivity. Qed.

Lemma repeated_first i m y : exists rs, repeated_rules i m y = ([], AWrap (FSubst (VList [])) ANone) :: rs.
Proof. unfold repeated_rules. destruct m as [[|[|m]]|]; eexists; reflexivity. Qed.

Lemma reachable_rec x n : recs_known x -> In (Rec n) (reachable x) -> In n names.
Proof. intros K I. unfold reachable in I. apply in_app_iff in I. destruct I; [now apply K|now apply rec_known]. Qed.

Lemma nullable_ends_all x : recs_known x -> @nullable_ends G x.
Proof.
  intro K.
  assert (X : forall k z, size z < k -> In z (reachable x) -> exists f b, @is_nullable G f z = Done b).
  { induction k as [|k IH]; intros z Lz Iz; [lia|]. destruct z as [n b|i rs|i m y|n].
    - exists 1, false. reflexivity.
    - destruct (@nullable_common (filter (fun B => size B <? size (Simple i rs)) (reachable x))) as [f F].
      { intros B IB. apply filter_In in IB. destruct IB as [IB LB]. apply Nat.ltb_lt in LB. apply IH; [lia|exact IB]. }
      destruct (@nullable_rules f (Simple i rs)) as [b Hb]; [|eauto].
      intros r B Ir IB. apply F. apply filter_In. split.
      + eapply (reachable_closed K); eauto.
      + apply Nat.ltb_lt. cbn [g_rhs g_rules sgrammar rules_of] in Ir, IB. apply in_map_iff in IB. destruct IB as [y [E Iy]].
        apply to_sym_nt in E. subst y. eapply size_sub; eauto.
    - exists 1, true. destruct (repeated_first i m y) as [rs E].
      apply (@nullable_first_empty (Repeated i m y) ([], AWrap (FSubst (VList [])) ANone) rs); [exact E|reflexivity].
    - apply rec_nullable. eapply reachable_rec; eauto. }
  destruct (@nullable_common (reachable x)) as [f F]. { intros B IB. apply (X (S (size B))); [lia|exact IB]. }
  exists f. intros B R. apply F. now apply reach_reachable.
Qed.

(** ** Productivity *)

Fixpoint sane (x : symbol) : bool :=
  match x with
  | Term _ b => negb (N.eqb b 0)
  | Simple _ rs => match rs with [] => false | _ => forallb (fun r => forallb sane (fst r)) rs end
  | Repeated _ _ y => sane y
  | Rec n => existsb (str_eqb n) names
  end.

Lemma sane_group x : sane (group x) = sane x.
Proof. destruct x as [|i rs| |]; cbn [group]; try reflexivity. now destruct (info_ephemeral i). Qed.

Lemma sane_simple i rs : sane (Simple i rs) = true -> forall r y, In r rs -> In y (fst r) -> sane y = true.
Proof.
  intros H r y I1 I2. cbn [sane] in H. destruct rs as [|r0 rs]; [discriminate|].
  rewrite forallb_forall in H. specialize (H _ I1). rewrite forallb_forall in H. now apply H.
Qed.

Lemma sane_below x : sane x = true -> forall z, In z (below x) -> sane z = true.
Proof.
  induction x as [n b|i rs IH|i m y0 IH|n] using symbol_ind'; intros S z Iz; destruct Iz as [<-|Iz]; auto; try contradiction.
  - apply in_flat_map in Iz. destruct Iz as [r0 [I0 Iz]]. apply in_flat_map in Iz. destruct Iz as [y1 [I1 Iz]].
    rewrite Forall_forall in IH. specialize (IH _ I0). rewrite Forall_forall in IH. apply (IH _ I1); auto.
    eapply sane_simple; eauto.
  - cbn [sane] in S. destruct Iz as [<-|Iz]; [now rewrite sane_group|]. apply in_app_iff in Iz.
    destruct Iz as [Iz|Iz]; [now apply IH|]. unfold again in Iz. apply in_map_iff in Iz. destruct Iz as [k [<- _]]. exact S.
Qed.

Lemma sane_recs x : sane x = true -> recs_known x.
Proof.
  intros S n I. pose proof (sane_below S I) as H. cbn [sane] in H. apply existsb_exists in H.
  destruct H as [m [Im E]]. apply str_eqb_eq in E. now subst.
Qed.

(** Recursive symbols generate something. *)
Hypothesis rec_lang : forall n, In n names -> exists w, lang rec_rules (Rec n) w.
Hypothesis rec_sane : forall n r y, In n names -> In r (rec_rules n) -> In y (fst r) -> sane y = true.

Lemma derives_list (xs : list symbol) :
  (forall x, In x xs -> exists w, lang rec_rules x w) -> exists w, @derives G (map to_sym xs) w.
Proof.
  induction xs as [|x xs IH]; intro H; [exists []; constructor|].
  destruct (H x) as [w W]; [simpl; auto|]. destruct IH as [w' W']. { intros y I. apply H. simpl. auto. }
  exists (w ++ w'). apply (@derives_1 G); assumption.
Qed.

Lemma sane_lang x : sane x = true -> exists w, lang rec_rules x w.
Proof.
  induction x as [n b|i rs IH|i m y0 IH|n] using symbol_ind'; intro S.
  - cbn [sane] in S. apply negb_true_iff, N.eqb_neq in S. destruct b as [|p]; [congruence|].
    exists [N.log2 (N.pos p)]. apply lang_term. eexists. split; [reflexivity|]. now apply N.bit_log2.
  - pose proof (sane_simple S) as C. destruct rs as [|r rs]; [discriminate|].
    destruct (@derives_list (fst r)) as [w W].
    { intros y I. rewrite Forall_forall in IH. specialize (IH r (or_introl eq_refl)). rewrite Forall_forall in IH.
      apply IH; [exact I|]. eapply C; [left; reflexivity|exact I]. }
    exists w. apply lang_simple. exists r. split; [simpl; auto|exact W].
  - exists []. destruct m; [apply repeated_bounded|apply repeated_unbounded]; exists 0; [split; [lia|]|]; reflexivity.
  - apply rec_lang. cbn [sane] in S. apply existsb_exists in S. destruct S as [m [Im E]]. apply str_eqb_eq in E. now subst.
Qed.

Lemma sane_reachable x : sane x = true -> forall z, In z (reachable x) -> sane z = true.
Proof.
  intros S z I. unfold reachable in I. apply in_app_iff in I. destruct I as [I|I]; [eapply sane_below; eauto|].
  unfold rec_below in I. apply in_flat_map in I. destruct I as [n [In_ I]]. apply in_flat_map in I.
  destruct I as [r [Ir I]]. apply in_flat_map in I. destruct I as [y [Iy I]].
  eapply sane_below; [eapply rec_sane; eauto|exact I].
Qed.

Lemma productive_all x : sane x = true -> @productive G x.
Proof.
  intros S B r RB Ir. pose proof (sane_recs S) as K. pose proof (reach_reachable K RB) as IB.
  apply (@derives_list (fst (r : rule))). intros y Iy.
  apply sane_lang.
  assert (X : forall z, In z (reachable x) -> forall r, In r (rules_of rec_rules z) -> forall y, In y (fst r) -> sane y = true).
  { clear y Iy. intros z Iz r0 Ir0 y Iy0. destruct (not_rec z) eqn:NR.
    - apply (sane_below (sane_reachable S Iz)). eapply below_closed; eauto. apply below_self.
    - destruct z as [| | |m]; try discriminate. eapply rec_sane; eauto. eapply reachable_rec; eauto. }
  eapply X; eauto.
Qed.

(** ** No nesting *)

Lemma below_size x : forall z, In z (below x) -> size z <= size x.
Proof.
  induction x as [n b|i rs IH|i m y0 IH|n] using symbol_ind'; intros z Iz; destruct Iz as [<-|Iz]; auto; try contradiction.
  - apply in_flat_map in Iz. destruct Iz as [r0 [I0 Iz]]. apply in_flat_map in Iz. destruct Iz as [y1 [I1 Iz]].
    rewrite Forall_forall in IH. specialize (IH _ I0). rewrite Forall_forall in IH. specialize (IH _ I1 _ Iz).
    pose proof (size_sub i I0 I1). lia.
  - cbn [size]. destruct Iz as [<-|Iz]; [rewrite size_group; lia|]. apply in_app_iff in Iz.
    destruct Iz as [Iz|Iz]; [specialize (IH _ Iz); lia|]. unfold again in Iz. apply in_map_iff in Iz.
    destruct Iz as [k [<- Ik]]. destruct m as [m|]; [|contradiction]. apply in_seq in Ik. cbn [size]. lia.
Qed.

Lemma not_nested i rs : recs_known (Simple i rs) -> ~ In (Simple i rs) rec_below ->
  ~ @self_nested G (Simple i rs).
Proof.
  intros K NR [B [r [RB [Ir IB]]]].
  set (D := flat_map (fun r : rule => flat_map below (fst r)) rs ++ rec_below).
  assert (Z : forall B r C, (B = Simple i rs \/ In B D) -> In r (rules_of rec_rules B) -> In C (fst r) -> In C D).
  { intros A r0 C [->|IA] I0 IC; unfold D in *; rewrite in_app_iff in *.
    - left. apply in_flat_map. exists r0. split; [exact I0|]. apply in_flat_map. exists C. split; [exact IC|apply below_self].
    - destruct (not_rec A) eqn:NA.
      + destruct IA as [IA|IA].
        * left. apply in_flat_map in IA. destruct IA as [r1 [I1 IA]]. apply in_flat_map in IA. destruct IA as [y [Iy IA]].
          apply in_flat_map. exists r1. split; [exact I1|]. apply in_flat_map. exists y. split; [exact Iy|].
          eapply below_closed; eauto.
        * right. unfold rec_below in *. apply in_flat_map in IA. destruct IA as [n [In_ IA]]. apply in_flat_map in IA.
          destruct IA as [r1 [I1 IA]]. apply in_flat_map in IA. destruct IA as [z [Iz IA]].
          apply in_flat_map. exists n. split; [exact In_|]. apply in_flat_map. exists r1. split; [exact I1|].
          apply in_flat_map. exists z. split; [exact Iz|]. eapply below_closed; eauto.
      + right. destruct A as [| | |n]; try discriminate.
        assert (Hn : In n names).
        { destruct IA as [IA|IA]; [|now apply rec_known]. apply K. cbn [below]. right. exact IA. }
        unfold rec_below. apply in_flat_map. exists n. split; [exact Hn|]. apply in_flat_map. exists r0. split; [exact I0|].
        apply in_flat_map. exists C. split; [exact IC|apply below_self]. }
  assert (Q : forall B, @reach G (Simple i rs) B -> B = Simple i rs \/ In B D).
  { intros A RA. induction RA as [|A r0 C RA IH I0 IC]; [auto|right].
    cbn [g_rhs sgrammar] in IC. apply in_map_iff in IC. destruct IC as [y [E Iy]]. apply to_sym_nt in E. subst y. eapply Z; eauto. }
  cbn [g_rhs sgrammar] in IB. apply in_map_iff in IB. destruct IB as [y [E Iy]]. apply to_sym_nt in E. subst y.
  assert (X : In (Simple i rs) D) by (eapply Z; [apply Q; exact RB|exact Ir|exact Iy]).
  unfold D in X. apply in_app_iff in X. destruct X as [X|X]; [|contradiction].
  apply in_flat_map in X. destruct X as [r1 [I1 X]]. apply in_flat_map in X. destruct X as [y [Iy' X]].
  pose proof (below_size X). pose proof (size_sub i I1 Iy'). lia.
Qed.

(** ** Summary *)
Lemma sane_well_formed x : is_nt x = true -> sane x = true -> @well_formed G x.
Proof.
  intros N S. pose proof (sane_recs S) as K. split.
  - now apply finite_from_all.
  - now apply nullable_ends_all.
  - apply rep_ok_all.
  - destruct x as [n b|i rs|i m y|n]; try discriminate.
    + cbn [g_rules sgrammar rules_of]. destruct rs; [discriminate|]. discriminate.
    + cbn [g_rules sgrammar rules_of]. unfold repeated_rules. destruct m as [[|[|m]]|]; discriminate.
    + destruct (sane_lang S) as [w W]. apply (@lang_nt rec_rules (Rec n) w) in W; [|reflexivity].
      destruct W as [r [I _]]. cbn [g_rules sgrammar]. intro E. rewrite E in I. contradiction.
Qed.

(** ** Properness: like [sane], but sets of octets may be empty. *)

Fixpoint proper (x : symbol) : bool :=
  match x with
  | Term _ _ => true
  | Simple _ rs => match rs with [] => false | _ => forallb (fun r => forallb proper (fst r)) rs end
  | Repeated _ _ y => proper y
  | Rec n => existsb (str_eqb n) names
  end.

Lemma proper_simple i rs : proper (Simple i rs) = true <-> rs <> [] /\ forall r y, In r rs -> In y (fst r) -> proper y = true.
Proof.
  cbn [proper]. destruct rs as [|r0 rs]; [intuition discriminate|]. rewrite forallb_forall. split.
  - intros H. split; [discriminate|]. intros r y I1 I2. specialize (H _ I1). rewrite forallb_forall in H. auto.
  - intros [_ H] r I1. apply forallb_forall. intros y I2. eauto.
Qed.
Lemma sane_proper x : sane x = true -> proper x = true.
Proof.
  induction x as [n b|i rs IH|i m y0 IH|n] using symbol_ind'; intro S; auto.
  apply proper_simple. split; [destruct rs; [discriminate S|discriminate]|]. intros r y I1 I2.
  rewrite Forall_forall in IH. specialize (IH _ I1). rewrite Forall_forall in IH. apply IH; [exact I2|]. eapply sane_simple; eauto.
Qed.
Lemma proper_group x : proper (group x) = proper x.
Proof. destruct x as [|i rs| |]; cbn [group]; try reflexivity. now destruct (info_ephemeral i). Qed.
Lemma proper_below x : proper x = true -> forall z, In z (below x) -> proper z = true.
Proof.
  induction x as [n b|i rs IH|i m y0 IH|n] using symbol_ind'; intros S z Iz; destruct Iz as [<-|Iz]; auto; try contradiction.
  - apply in_flat_map in Iz. destruct Iz as [r0 [I0 Iz]]. apply in_flat_map in Iz. destruct Iz as [y1 [I1 Iz]].
    rewrite Forall_forall in IH. specialize (IH _ I0). rewrite Forall_forall in IH. apply (IH _ I1); auto.
    apply proper_simple in S. eapply (proj2 S); eauto.
  - cbn [proper] in S. destruct Iz as [<-|Iz]; [now rewrite proper_group|]. apply in_app_iff in Iz.
    destruct Iz as [Iz|Iz]; [now apply IH|]. unfold again in Iz. apply in_map_iff in Iz. destruct Iz as [k [<- _]]. exact S.
Qed.
Lemma proper_recs x : proper x = true -> recs_known x.
Proof.
  intros S n I. pose proof (proper_below S I) as H. cbn [proper] in H. apply existsb_exists in H.
  destruct H as [m [Im E]]. apply str_eqb_eq in E. now subst.
Qed.
Lemma proper_well_formed x : is_nt x = true -> proper x = true -> @well_formed G x.
Proof.
  intros N S. pose proof (proper_recs S) as K. split.
  - now apply finite_from_all.
  - now apply nullable_ends_all.
  - apply rep_ok_all.
  - destruct x as [n b|i rs|i m y|n]; try discriminate.
    + cbn [g_rules sgrammar rules_of]. destruct rs; [discriminate|]. discriminate.
    + cbn [g_rules sgrammar rules_of]. unfold repeated_rules. destruct m as [[|[|m]]|]; discriminate.
    + destruct (rec_lang (K n (below_self _))) as [w W]. apply (@lang_nt rec_rules (Rec n) w) in W; [|reflexivity].
      destruct W as [r [I _]]. cbn [g_rules sgrammar]. intro E. rewrite E in I. contradiction.
Qed.

(** The combinators. *)
Lemma proper_as_rules x : proper x = true -> as_rules x <> [] /\ forall r y, In r (as_rules x) -> In y (fst r) -> proper y = true.
Proof.
  intro P. unfold as_rules. destruct x as [|i rs| |]; try (split; [discriminate|]; intros r y [<-|[]] [<-|[]]; exact P).
  destruct (info_ephemeral i); [now apply proper_simple in P|]. split; [discriminate|]; intros r y [<-|[]] [<-|[]]; exact P.
Qed.
Lemma proper_as_rule x y : proper x = true -> In y (fst (as_rule x)) -> proper y = true.
Proof.
  intros P I. unfold as_rule in I. destruct x as [|i [|r [|]]| |]; try (destruct I as [<-|[]]; exact P).
  destruct (info_ephemeral i); [|destruct I as [<-|[]]; exact P]. apply proper_simple in P. eapply (proj2 P); [left; reflexivity|exact I].
Qed.
Lemma proper_seq a b : proper a = true -> proper b = true -> proper (seq2 a b) = true.
Proof.
  intros A B. apply proper_simple. split; [discriminate|]. intros r y [<-|[]] I. cbn [rule_concat fst] in I. apply in_app_iff in I.
  destruct I as [I|I]; [exact (proper_as_rule A I)|exact (proper_as_rule B I)].
Qed.
Lemma proper_alt a b : proper a = true -> proper b = true -> proper (alt a b) = true.
Proof.
  intros A B. assert (X : proper (Simple anon (as_rules a ++ as_rules b)) = true).
  { apply proper_simple. destruct (proper_as_rules A) as [NA RA], (proper_as_rules B) as [NB RB]. split.
    - destruct (as_rules a); [congruence|discriminate].
    - intros r y I. apply in_app_iff in I. destruct I as [I|I]; eauto. }
  unfold alt. destruct a, b; auto.
Qed.
Lemma proper_wrap f x : proper x = true -> proper (wrap f x) = true.
Proof.
  intro P. destruct (proper_as_rules P) as [N R]. apply proper_simple. split.
  - destruct (as_rules x); [congruence|discriminate].
  - intros r y I Iy. apply in_map_iff in I. destruct I as [r0 [<- I]]. cbn [rule_wrap fst] in Iy. eauto.
Qed.
Lemma proper_empty : proper empty = true.
Proof. reflexivity. Qed.
Lemma proper_add a b : proper a = true -> proper b = true -> proper (add a b) = true.
Proof. intros. now apply proper_wrap, proper_seq. Qed.
Lemma proper_modl a b : proper a = true -> proper b = true -> proper (modl a b) = true.
Proof. intros. now apply proper_wrap, proper_seq. Qed.
Lemma proper_skip x : proper x = true -> proper (skip x) = true.
Proof. apply proper_wrap. Qed.
Lemma proper_maybe x d : proper x = true -> proper (maybe x d) = true.
Proof. intro P. apply proper_alt; [exact P|reflexivity]. Qed.
Lemma proper_minus a b : proper (minus a b) = true.
Proof. reflexivity. Qed.
Lemma proper_copies n : forall r x, proper r = true -> proper x = true -> proper (copies n r x) = true.
Proof.
  induction n as [|n IH]; intros r x R X; [exact R|]. cbn [copies]. apply IH; [|exact X]. apply proper_seq; [exact R|now rewrite proper_group].
Qed.
Lemma proper_times a b x : proper x = true -> proper (times a b x) = true.
Proof.
  intro P. unfold times. destruct a as [|a]; [exact P|].
  assert (C : proper (wrap FAsList (copies (S a) empty x)) = true) by (apply proper_wrap, proper_copies; [reflexivity|exact P]).
  destruct (match b with Some m => Nat.eqb m (S a) | None => false end); [exact C|]. apply proper_add; [exact C|exact P].
Qed.
Lemma proper_literal_c cs c : proper (literal_c cs c) = true.
Proof. unfold literal_c. destruct cs; reflexivity. Qed.
Lemma proper_literal cs x : proper (literal' cs x) = true.
Proof.
  assert (F : forall x r, proper r = true -> proper (fold_left (fun r c => seq2 r (literal_c cs c)) x r) = true).
  { clear x. induction x as [|c x IH]; intros r R; [exact R|]. cbn [fold_left]. apply IH, proper_seq; [exact R|apply proper_literal_c]. }
  destruct x as [|c [|d x]]; [|apply proper_literal_c|]; apply proper_wrap, F; reflexivity.
Qed.
Lemma proper_seal n p x : proper x = true -> proper (seal n p x) = true.
Proof.
  intro P. assert (X : forall i, proper (Simple i [([x], ANone)]) = true).
  { intro i. apply proper_simple. split; [discriminate|]. intros r y [<-|[]] [<-|[]]. exact P. }
  destruct x as [[?|] b|[[?|] ? ?] rs|[[?|] ? ?] m y|n0]; cbn [seal]; auto.
Qed.
Lemma proper_excluding fuel : forall n b l, proper (excluding_ fuel (Term n b) l) = true.
Proof.
  induction fuel as [|f IH]; intros n b l; [reflexivity|]. cbn [excluding_].
  assert (F : forall inits r, proper r = true -> proper (fold_left
    (fun r c => alt r (add (literal_c false c) (excluding_ f (Term n b) (continuations c l)))) inits r) = true).
  { induction inits as [|c inits IHi]; intros r R; [exact R|]. cbn [fold_left]. apply IHi, proper_alt; [exact R|].
    apply proper_add; [apply proper_literal_c|apply IH]. }
  assert (Fr : forall inits t, proper t = true -> proper (fold_left (fun f c => minus f (literal_c false c)) inits t) = true).
  { induction inits as [|c inits IHi]; intros t T; [exact T|]. cbn [fold_left]. apply IHi. reflexivity. }
  set (r := fold_left _ (initials l) _).
  assert (R : proper r = true).
  { apply F, proper_add; [apply Fr; reflexivity|]. apply proper_wrap. reflexivity. }
  match goal with |- context [if ?c then _ else _] => destruct c end; [exact R|]. apply proper_alt; [exact R|reflexivity].
Qed.

End WF.
