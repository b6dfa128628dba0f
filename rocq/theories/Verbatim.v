(** Which parts of a text are turned into objects: an analysis of the grammar.

    The parser marks in a header the objects that it makes from it, such as names
    of methods or media types (httpolice/parse.py:134-143, 893-895).  This is not
    part of httpolice: it is how the proofs know that such an object has the text
    that it was made from. *)
From Coq Require Import ZifyBool ZifyNat ZifyN Permutation String.
From Verif Require Import Base Earley EarleySpec EarleyChart EarleySearch EarleyMain Parse P_Earley P_Parse Grammar GrammarSem GrammarLang GrammarWF GrammarVals GrammarCalc Syntax Actions.
Open Scope nat_scope.
Open Scope list_scope.
Unset Strict Implicit.

(** ** Pieces of text *)

(** A string, or a list of strings. *)
Inductive kind := KText | KList.
Definition kind_dec (a b : kind) : {a = b} + {a <> b}.
Proof. decide equality. Defined.
(** The value of that kind that was made of a text, nothing left out or added. *)
Definition is_made (k : kind) (w : str) (v : val) : Prop :=
  match k with
  | KText => v = VStr w
  | KList => exists l, v = VList (map VStr l) /\ List.concat l = w
  end.
(** Values made of consecutive parts of a text. *)
Inductive covers : list kind -> str -> list val -> Prop :=
| covers_nil : covers [] [] []
| covers_cons k ks w w' v vs : is_made k w v -> covers ks w' vs -> covers (k :: ks) (w ++ w') (v :: vs).

Lemma covers_app ks w vs : covers ks w vs -> forall ks' w' vs', covers ks' w' vs' -> covers (ks ++ ks') (w ++ w') (vs ++ vs').
Proof. induction 1 as [|k ks w1 w2 v vs M C IH]; intros ks' w' vs' H; [exact H|]. rewrite <- app_assoc. cbn [app]. constructor; auto. Qed.
Lemma covers_one k w v : is_made k w v -> covers [k] w [v].
Proof. intro M. rewrite <- (app_nil_r w). constructor; [exact M|constructor]. Qed.
Lemma covers_one_inv k w vs : covers [k] w vs -> exists v, vs = [v] /\ is_made k w v.
Proof. intro C. inversion C as [|? ? w1 w2 v vs' M C']; subst. inversion C'; subst. rewrite app_nil_r. eauto. Qed.
Lemma covers_nil_inv w vs : covers [] w vs -> w = [] /\ vs = [].
Proof. intro C. now inversion C. Qed.
Lemma made_not_skip k w v : is_made k w v -> is_vskip v = false.
Proof. destruct k; [now intros ->|intros (l & -> & _); reflexivity]. Qed.
Lemma covers_nonskip ks w vs : covers ks w vs -> filter (fun v => negb (is_vskip v)) vs = vs.
Proof. induction 1 as [|k ks w1 w2 v vs M C IH]; [reflexivity|]. cbn [filter]. rewrite (made_not_skip M), IH. reflexivity. Qed.
(** Texts only. *)
Definition texts (ks : list kind) : bool := forallb (fun k => match k with KText => true | KList => false end) ks.
Lemma covers_texts ks w vs : covers ks w vs -> texts ks = true -> exists l, vs = map VStr l /\ List.concat l = w.
Proof.
  induction 1 as [|k ks w1 w2 v vs M C IH]; intro T; [now exists []|]. cbn in T. destruct k; [|discriminate T]. destruct (IH T) as (l & -> & <-).
  cbn in M. subst v. now exists (w1 :: l).
Qed.
Lemma join_texts l : join_vals (map VStr l) = Some (List.concat l).
Proof. induction l as [|x l IH]; [reflexivity|]. cbn. now rewrite IH. Qed.

(** ** Actions *)

Section Analysis.
(** The classes of the objects that are marked.  All are classes of strings or of
    numbers, so their objects are made of one argument. *)
Variable marked : str -> bool.
(** The octets that the texts of some of them consist of. *)
Variable alphabet : str -> option N.
Definition annotated (v : val) : bool := match v with VObj c [_] => marked c | _ => false end.
Variable nested : pyf -> list val -> val * list vcomplaint.
Notation pyfun := (pyfun nested).

(** What is known about the nodes of a rule: they cover its text; they are one
    marked object that has all of its text; all marked objects among them are
    nodes of the parts; or nothing. *)
Inductive abs := Cover (ks : list kind) | Made (c : str) | Safe | Unknown.
Definition sat (a : abs) (w : str) (vs nodes : list val) : Prop :=
  match a with
  | Cover ks => covers ks w nodes
  | Made c => nodes = [VObj c [VStr w]]
  | Safe => forall v, In v nodes -> annotated v = true -> In v vs
  | Unknown => True
  end.
Lemma covers_safe ks w nodes : covers ks w nodes -> forall v, In v nodes -> annotated v = false.
Proof. induction 1 as [|k ks w1 w2 v vs M C IH]; intros x []; [subst x; destruct k; [now rewrite M|destruct M as (l & -> & _); reflexivity]|auto]. Qed.
Definition safe (a : abs) : bool := match a with Cover _ | Safe => true | _ => false end.
Lemma sat_safe a w vs nodes : safe a = true -> sat a w vs nodes -> sat Safe w vs nodes.
Proof. destruct a; try discriminate; intros _ H; [|exact H]. intros v I A. rewrite (covers_safe H I) in A. discriminate A. Qed.

(** What a function makes of that. *)
Definition wrap_abs (f : func) (a : abs) : abs :=
  match f, a with
  | _, Unknown | _, Made _ => Unknown
  | FSkipArgs, _ => Safe
  | FJoinArgs, Cover ks => if texts ks then Cover [KText] else Safe
  | FSubst v, Cover [] => match v with VStr [] => Cover [KText] | VList [] => Cover [KList] | _ => if annotated v then Unknown else Safe end
  | FSubst v, _ => if annotated v then Unknown else Safe
  | FAsList, Cover ks => if texts ks then Cover [KList] else Safe
  | FBeginList, Cover [KText] => Cover [KList]
  | FContinueList, Cover [KText; KList] => Cover [KList]
  | FJoin, Cover [KList] => Cover [KText]
  | FAdd, Cover [KText; KText] => Cover [KText]
  | FAdd, Cover [KList; KList] => Cover [KList]
  | FClass c, Cover [KText] => if marked c then Made c else Safe
  | FClass c, _ => if marked c then Unknown else Safe
  | _, _ => Safe
  end.
Fixpoint eval (act : raction) (kids : list (option kind)) : abs :=
  match act with
  | ANone => if forallb (fun k => match k with Some _ => true | None => false end) kids then Cover (flat_map (fun k => match k with Some k => [k] | None => [] end) kids) else Safe
  | AConcat n a1 a2 =>
      match eval a1 (firstn n kids), eval a2 (skipn n kids) with
      | Cover k1, Cover k2 => Cover (k1 ++ k2)
      | x, y => if safe x && safe y then Safe else Unknown
      end
  | AWrap f a => wrap_abs f (eval a kids)
  end.

(** The functions of httpolice/syntax do not make marked objects. *)
Definition nested_safe : Prop := forall p args, annotated (fst (nested p args)) = true -> In (fst (nested p args)) args.
Hypothesis NS : nested_safe.
Hypothesis plain : marked (s "MultiDict") = false.

Lemma to_datetime_plain dow d t : annotated (to_datetime dow d t) = false.
Proof. unfold to_datetime. repeat match goal with |- context [match ?x with _ => _ end] => destruct x; try reflexivity end. Qed.
Lemma py_safe p args : annotated (fst (pyfun p args)) = true -> In (fst (pyfun p args)) args.
Proof.
  destruct p; try apply NS; cbn [Actions.pyfun];
    repeat (cbn [fst annotated parametrized multidict]; first [ intro; discriminate | rewrite plain; intro; discriminate | now (intro; left) |
      match goal with
      | |- context [check_media_type] => unfold check_media_type
      | |- context [to_date] => unfold to_date
      | |- context [to_time] => unfold to_time
      | |- context [to_datetime] => rewrite to_datetime_plain
      | |- context [int_of] => unfold int_of
      | |- context [check_day_of_week] => unfold check_day_of_week
      | |- context [check_protocol_id] => unfold check_protocol_id
      | |- context [check_ext_value] => unfold check_ext_value
      | |- context [match ?x with _ => _ end] => destruct x
      end ]).
Qed.

(** Functions, if they are safe. *)
Lemma call_safe f args : match f with FClass c => marked c = false | FSubst v => annotated v = false | _ => True end ->
  annotated (fst (call_func pyfun f args)) = true -> In (fst (call_func pyfun f args)) args.
Proof.
  destruct f; cbn [call_func]; intro N.
  - discriminate.
  - destruct (join_vals args); discriminate.
  - cbn [fst]. congruence.
  - discriminate.
  - destruct args as [|a [|b l]]; discriminate.
  - destruct (rev args) as [|[] [|y [|z l]]]; discriminate.
  - destruct args as [|[] [|]]; try discriminate. destruct (join_vals l); discriminate.
  - destruct args as [|[] [|[] [|]]]; discriminate.
  - destruct args as [|a [|]]; discriminate.
  - destruct args as [|[] [|]]; try discriminate. unfold int_of. destruct x as [|c x]; [discriminate|]. destruct (digits_val 0 (c :: x)); discriminate.
  - destruct args as [|[] [|]]; discriminate.
  - cbn [fst annotated]. destruct args as [|a [|]]; congruence.
  - apply py_safe.
Qed.
Definition node_of_result (r : val) : list val := if is_vskip r then [] else [r].
Lemma wrap_safe f a w vs nodes : match f with FClass c => marked c = false | FSubst v => annotated v = false | _ => True end -> safe a = true -> sat a w vs nodes ->
  sat Safe w vs (node_of_result (fst (call_func pyfun f (filter (fun v => negb (is_vskip v)) nodes)))).
Proof.
  intros N Sf H. pose proof (sat_safe Sf H) as S. cbn [sat] in *. intros v I A. unfold node_of_result in I. destruct (is_vskip _); [destruct I|]. destruct I as [<-|[]].
  pose proof (call_safe N A) as I. apply filter_In in I. apply S; [apply I|exact A].
Qed.
Lemma wrap_ok f a w vs nodes : sat a w vs nodes ->
  sat (wrap_abs f a) w vs (node_of_result (fst (call_func pyfun f (filter (fun v => negb (is_vskip v)) nodes)))).
Proof.
  intro H. destruct a as [ks| | |]; try (destruct f; exact Logic.I).
  - cbn [sat] in H.
    assert (SafeCase : match f with FClass c => marked c = false | FSubst v => annotated v = false | _ => True end ->
      sat Safe w vs (node_of_result (fst (call_func pyfun f (filter (fun v => negb (is_vskip v)) nodes))))).
    { intro N. now apply (@wrap_safe f (Cover ks) w vs nodes). }
    rewrite (covers_nonskip H) in *.
    destruct f; try (exact (SafeCase Logic.I)); cbn [wrap_abs].
    + destruct (texts ks) eqn:T; [|exact (SafeCase Logic.I)]. destruct (covers_texts H T) as (l & -> & <-). cbn [call_func fst]. rewrite join_texts. now apply covers_one.
    + assert (B : sat (if annotated v then Unknown else Safe) w vs (node_of_result (fst (call_func pyfun (FSubst v) nodes)))) by (destruct (annotated v) eqn:A; [exact Logic.I|apply SafeCase; first [reflexivity|exact A]]).
      destruct ks as [|]; [|exact B]. apply covers_nil_inv in H. destruct H as [-> ->].
      destruct v as [[|]| | | | | | |[|]| | | |]; try exact B; apply covers_one; [reflexivity|now exists []].
    + destruct (texts ks) eqn:T; [|exact (SafeCase Logic.I)]. destruct (covers_texts H T) as (l & -> & <-). apply covers_one. now exists l.
    + destruct ks as [|[] [|]]; try exact (SafeCase Logic.I). apply covers_one_inv in H. destruct H as (v & -> & M). cbn in M. subst v. apply covers_one. exists [w]. cbn. now rewrite app_nil_r.
    + destruct ks as [|[] [|[] [|]]]; try exact (SafeCase Logic.I). inversion H as [|? ? w1 w2 v1 vs1 M1 C1]; subst. apply covers_one_inv in C1. destruct C1 as (v2 & -> & l & -> & <-). cbn in M1. subst v1.
      apply covers_one. exists (w1 :: l). auto.
    + destruct ks as [|[] [|]]; try exact (SafeCase Logic.I). apply covers_one_inv in H. destruct H as (v & -> & l & -> & <-). cbn [call_func fst]. rewrite join_texts. now apply covers_one.
    + destruct ks as [|[] [|[] [|]]]; try exact (SafeCase Logic.I); inversion H as [|? ? w1 w2 v1 vs1 M1 C1]; subst; apply covers_one_inv in C1.
      * destruct C1 as (v2 & -> & M2). cbn in M1, M2. subst v1 v2. now apply covers_one.
      * destruct C1 as (v2 & -> & l2 & -> & <-). destruct M1 as (l1 & -> & <-). apply covers_one. exists (l1 ++ l2). now rewrite map_app, concat_app.
    + assert (B : sat (if marked cls then Unknown else Safe) w vs (node_of_result (fst (call_func pyfun (FClass cls) nodes)))) by (destruct (marked cls) eqn:A; [exact Logic.I|apply SafeCase; first [reflexivity|exact A]]).
      destruct ks as [|[] [|]]; try exact B. destruct (marked cls) eqn:A; [|apply SafeCase; first [reflexivity|exact A]]. apply covers_one_inv in H. destruct H as (v & -> & M). cbn in M. subst v. reflexivity.
  - destruct f; cbn [wrap_abs]; try (apply wrap_safe with (a := Safe); [exact Logic.I|reflexivity|exact H]).
    + destruct (annotated v) eqn:A; [exact Logic.I|]. now apply wrap_safe with (a := Safe).
    + destruct (marked cls) eqn:A; [exact Logic.I|]. now apply wrap_safe with (a := Safe).
Qed.

(** The parts of a rule: their texts, values, and kinds where known. *)
Inductive parts : list (option kind) -> list str -> list val -> Prop :=
| parts_nil : parts [] [] []
| parts_cons k ks w ws v vs : match k with Some k => is_made k w v | None => True end -> parts ks ws vs -> parts (k :: ks) (w :: ws) (v :: vs).
Lemma parts_firstn n : forall ks ws vs, parts ks ws vs -> parts (firstn n ks) (firstn n ws) (firstn n vs).
Proof. induction n as [|n IH]; intros ks ws vs H; [constructor|]. destruct H; [constructor|]. cbn. constructor; auto. Qed.
Lemma parts_skipn n : forall ks ws vs, parts ks ws vs -> parts (skipn n ks) (skipn n ws) (skipn n vs).
Proof. induction n as [|n IH]; intros ks ws vs H; [exact H|]. destruct H; [constructor|]. cbn. auto. Qed.
Lemma in_firstn {A} n (l : list A) x : In x (firstn n l) -> In x l.
Proof. intro I. rewrite <- (firstn_skipn n l). apply in_or_app. now left. Qed.
Lemma in_skipn {A} n (l : list A) x : In x (skipn n l) -> In x l.
Proof. intro I. rewrite <- (firstn_skipn n l). apply in_or_app. now right. Qed.

Lemma eval_ok act : forall ks ws vs, parts ks ws vs -> sat (eval act ks) (List.concat ws) vs (fst (run_action pyfun act vs)).
Proof.
  induction act as [|n a1 IH1 a2 IH2|f a IH]; intros ks ws vs H.
  - cbn [eval run_action fst]. destruct (forallb _ ks) eqn:K; [|now intros v I A]. cbn [sat].
    induction H as [|k ks w ws v vs M H IH]; [constructor|]. cbn in K. destruct k as [k|]; [|discriminate K]. cbn. constructor; auto.
  - cbn [eval run_action]. specialize (IH1 _ _ _ (parts_firstn n H)). specialize (IH2 _ _ _ (parts_skipn n H)).
    destruct (run_action pyfun a1 (firstn n vs)) as [n1 c1]. destruct (run_action pyfun a2 (skipn n vs)) as [n2 c2]. cbn [fst] in *.
    set (x := eval a1 (firstn n ks)) in *. set (y := eval a2 (skipn n ks)) in *.
    assert (B : sat (if safe x && safe y then Safe else Unknown) (List.concat ws) vs (n1 ++ n2)).
    { destruct (safe x) eqn:S1; [|exact Logic.I]. destruct (safe y) eqn:S2; [|exact Logic.I]. cbn [andb]. intros v I A. apply in_app_or in I. destruct I as [I|I].
      - apply (in_firstn (n := n)). exact (sat_safe S1 IH1 I A).
      - apply (in_skipn (n := n)). exact (sat_safe S2 IH2 I A). }
    destruct x as [k1| | |]; try exact B. destruct y as [k2| | |]; try exact B. cbn [sat] in *.
    rewrite <- (firstn_skipn n ws), concat_app. now apply covers_app.
  - cbn [eval run_action]. specialize (IH _ _ _ H). destruct (run_action pyfun a vs) as [nodes cs]. cbn [fst] in *.
    pose proof (wrap_ok f IH) as R. destruct (call_func pyfun f _) as [r cs']. exact R.
Qed.

(** ** Symbols *)

Definition kinds_of_rule (kind_of : symbol -> option kind) (r : rule) : list (option kind) := map kind_of (fst r).
(** The kind of the values of a symbol, if all are made of all of its text. *)
Definition same_kind (a b : option kind) : option kind :=
  match a, b with Some x, Some y => if kind_dec x y then Some x else None | _, _ => None end.
Definition kind_of_abs (a : abs) : option kind := match a with Cover [k] => Some k | _ => None end.
Fixpoint kind_of (x : symbol) : option kind :=
  match x with
  | Term _ _ => Some KText
  | Simple _ rs =>
      match map (fun r : list symbol * raction => kind_of_abs (eval (snd r) (map kind_of (fst r)))) rs with
      | [] => None
      | k :: ks => fold_left same_kind ks k
      end
  | Repeated _ None y => match kind_of y with Some KText => Some KList | _ => None end
  | Repeated _ (Some _) _ | Rec _ => None
  end.
(** Symbols that do not match the empty string. *)
Fixpoint nonempty (x : symbol) : bool :=
  match x with
  | Term _ _ => true
  | Simple _ rs => forallb (fun r : list symbol * raction => existsb nonempty (fst r)) rs
  | Repeated _ _ _ | Rec _ => false
  end.
(** The octets that the symbols of a rule read are among these; [false] if that is not
    known. *)
Fixpoint chars_in (b : N) (x : symbol) : bool :=
  match x with
  | Term _ b' => N.eqb (N.ldiff b' b) 0
  | Simple _ rs => forallb (fun r : list symbol * raction => forallb (chars_in b) (fst r)) rs
  | Repeated _ _ _ | Rec _ => false
  end.
Definition within (b : N) (xs : list symbol) : bool := forallb (chars_in b) xs.
(** Rules that only mark objects that have all of their text, or that are marked already. *)
Definition rule_fine (r : rule) : bool :=
  match eval (snd r) (map kind_of (fst r)) with
  | Cover _ | Safe => true
  | Made c => existsb nonempty (fst r) && match alphabet c with Some b => within b (fst r) | None => true end
  | Unknown => false
  end.
Variable rec_rules : str -> list rule.
Definition symbol_fine (x : symbol) : bool := forallb rule_fine (rules_of rec_rules x).

Notation mns := (means rec_rules pyfun).
Lemma seq_parts xs w vs kc : Forall (fun x => forall k w v cs, kind_of x = Some k -> mns x w v cs -> is_made k w v) xs ->
  means_seq rec_rules pyfun xs w vs kc -> exists ws, parts (map kind_of xs) ws vs /\ List.concat ws = w.
Proof.
  intros F M. induction M as [|x xs w ws v vs cs css M1 M2 IH]; [exists []; split; [constructor|reflexivity]|].
  inversion F as [|? ? S F']; subst. destruct (IH F') as (l & P & <-). exists (w :: l). split; [|reflexivity]. cbn [map]. constructor; [|exact P].
  destruct (kind_of x) as [k|] eqn:K; [|exact Logic.I]. exact (S k w v cs eq_refl M1).
Qed.
Lemma fold_kind ks : forall k k', fold_left same_kind ks k = Some k' -> forall x, In x (k :: ks) -> x = Some k'.
Proof.
  induction ks as [|a ks IH]; intros k k' H x I; cbn in H.
  - destruct I as [<-|[]]. exact H.
  - assert (A : same_kind k a = Some k') by (apply (IH _ _ H); now left).
    destruct k as [x1|], a as [x2|]; try discriminate A. cbn in A. destruct (kind_dec x1 x2) as [<-|]; [|discriminate A]. injection A as <-.
    destruct I as [<-|[<-|I]]; [reflexivity|reflexivity|]. apply (IH _ _ H). now right.
Qed.
Lemma covers_collapse k w nodes : covers [k] w nodes -> is_made k w (collapse nodes).
Proof. intro C. destruct (covers_one_inv C) as (v & -> & M). unfold collapse. cbn [filter]. rewrite (made_not_skip M). exact M. Qed.
Lemma kind_ok x : forall k w v cs, kind_of x = Some k -> mns x w v cs -> is_made k w v.
Proof.
  induction x as [nm b|i rs IH|i m y IH|nm] using symbol_ind'; intros k w v cs K M.
  - apply means_term in M. destruct M as (c & _ & -> & -> & _). injection K as <-. reflexivity.
  - apply means_simple in M. destruct M as ([xs a] & nodes & kc & ac & Ir & (vs & MS & RA) & -> & ->). cbn [fst snd] in *.
    rewrite Forall_forall in IH. destruct (seq_parts (IH _ Ir) MS) as (ws & P & <-). pose proof (eval_ok a P) as Ev. rewrite RA in Ev. cbn [fst] in Ev.
    cbn [kind_of] in K. set (f := fun r : list symbol * raction => kind_of_abs (eval (snd r) (map kind_of (fst r)))) in K.
    assert (Q : f (xs, a) = Some k).
    { assert (I : In (f (xs, a)) (map f rs)) by (now apply in_map). destruct (map f rs) as [|k0 ks]; [destruct I|]. exact (fold_kind K I). }
    unfold f in Q. cbn [fst snd] in Q. destruct (eval a (map kind_of xs)) as [[|k1 [|]]| | |]; try discriminate Q. injection Q as ->. now apply covers_collapse.
  - cbn [kind_of] in K. destruct m as [m|]; [discriminate K|]. destruct (kind_of y) as [[]|] eqn:Ky; try discriminate K. injection K as <-.
    apply means_repeated in M. destruct M as (vs & M & ->). cbn [is_made].
    induction M as [|w ws v vs cs css M1 M2 IHM]; [now exists []|]. destruct IHM as (l & E & <-). pose proof (IH KText w v cs eq_refl M1) as X. cbn in X. subst v.
    exists (w :: l). split; [|reflexivity]. injection E as ->. reflexivity.
  - discriminate K.
Qed.
Lemma nonempty_seq xs w vs kc : Forall (fun x => nonempty x = true -> forall w v cs, mns x w v cs -> w <> []) xs -> existsb nonempty xs = true ->
  means_seq rec_rules pyfun xs w vs kc -> w <> [].
Proof.
  intros F E M. revert F E. induction M as [|x xs w ws v vs cs css M1 M2 IH]; intros F E; [discriminate E|].
  inversion F as [|? ? S F']; subst. cbn [existsb] in E. apply orb_true_iff in E. intro Z. apply app_eq_nil in Z. destruct Z as [-> ->]. destruct E as [E|E]; [exact (S E _ _ _ M1 eq_refl)|exact (IH F' E eq_refl)].
Qed.
Lemma nonempty_ok x : nonempty x = true -> forall w v cs, mns x w v cs -> w <> [].
Proof.
  induction x as [nm b|i rs IH|i m y IH|nm] using symbol_ind'; intros K w v cs M; try discriminate K.
  - apply means_term in M. destruct M as (c & _ & -> & _). discriminate.
  - apply means_simple in M. destruct M as ([xs a] & nodes & kc & ac & Ir & (vs & MS & RA) & -> & ->). cbn [fst snd] in *.
    rewrite Forall_forall in IH. apply (fun H => nonempty_seq (IH _ Ir) H MS). exact (proj1 (forallb_forall _ _) K _ Ir).
Qed.
Definition all_in (b : N) (w : str) : Prop := forall c, In c w -> N.testbit b c = true.
Lemma chars_seq b xs w vs kc : Forall (fun x => chars_in b x = true -> forall w v cs, mns x w v cs -> all_in b w) xs -> within b xs = true ->
  means_seq rec_rules pyfun xs w vs kc -> all_in b w.
Proof.
  intros F E M. revert F E. induction M as [|x xs w ws v vs cs css M1 M2 IH]; intros F E c I; [destruct I|].
  inversion F as [|? ? S F']; subst. unfold within in E. cbn [forallb] in E. apply andb_true_iff in E. destruct E as [E1 E2]. apply in_app_or in I. destruct I as [I|I]; [exact (S E1 _ _ _ M1 c I)|exact (IH F' E2 c I)].
Qed.
Lemma chars_ok b x : chars_in b x = true -> forall w v cs, mns x w v cs -> all_in b w.
Proof.
  induction x as [nm b'|i rs IH|i m y IH|nm] using symbol_ind'; intros K w v cs M; try discriminate K.
  - apply means_term in M. destruct M as (c & T & -> & _). intros c' [<-|[]]. cbn [chars_in] in K. apply N.eqb_eq in K.
    destruct (N.testbit b c) eqn:B; [reflexivity|]. assert (X : N.testbit (N.ldiff b' b) c = true) by (now rewrite N.ldiff_spec, T, B). rewrite K, N.bits_0 in X. discriminate X.
  - apply means_simple in M. destruct M as ([xs a] & nodes & kc & ac & Ir & (vs & MS & RA) & -> & ->). cbn [fst snd] in *.
    rewrite Forall_forall in IH. apply (fun H => chars_seq (IH _ Ir) H MS). exact (proj1 (forallb_forall _ _) K _ Ir).
Qed.

(** ** Trees *)
Notation G := (sgrammar rec_rules).
Notation pmeaning := (meaning (@p_leaf) (@p_act rec_rules pyfun annotated) (@p_rep)).
Notation pmeanings := (meanings (@p_leaf) (@p_act rec_rules pyfun annotated) (@p_rep)).
Notation pelements := (elements (@p_leaf) (@p_act rec_rules pyfun annotated) (@p_rep)).
Notation anns := (flat_map (@pr_annotations val vcomplaint)).

(** Marks: where from, where to, and the object. *)
Definition mark_t : Type := nat * nat * val.
(** An object that has the text where it is. *)
Definition exact_at (data : str) (m : mark_t) : Prop :=
  bslice data (fst (fst m)) (snd (fst m)) <> [] /\
  exists c, snd m = VObj c [VStr (bslice data (fst (fst m)) (snd (fst m)))] /\
    (forall b, alphabet c = Some b -> all_in b (bslice data (fst (fst m)) (snd (fst m)))).
(** A mark that is left out because another one, which comes earlier in the list,
    does not begin before. *)
Definition covered (before : list mark_t) (m : mark_t) : Prop :=
  exists m', In m' before /\ fst (fst m) <= fst (fst m').
Fixpoint good (data : str) (before l : list mark_t) : Prop :=
  match l with
  | [] => True
  | m :: l' => fst (fst m) < snd (fst m) /\ (exact_at data m \/ covered before m) /\ good data (before ++ [m]) l'
  end.
Lemma good_more data l : forall b b', incl b b' -> good data b l -> good data b' l.
Proof.
  induction l as [|m l IH]; intros b b' Inc H; [exact Logic.I|]. destruct H as (H1 & H2 & H3). split; [exact H1|]. split.
  - destruct H2 as [H2|(m' & I & H2)]; [now left|]. right. exists m'. split; [now apply Inc|exact H2].
  - apply (IH (b ++ [m])); [|exact H3]. intros x I. apply in_app_or in I. apply in_or_app. destruct I as [I|I]; [left; now apply Inc|now right].
Qed.
Lemma good_app data l1 : forall b l2, good data b l1 -> good data (b ++ l1) l2 -> good data b (l1 ++ l2).
Proof.
  induction l1 as [|m l1 IH]; intros b l2 H1 H2; [now rewrite app_nil_r in H2|]. destruct H1 as (A & B & D). cbn [app good]. split; [exact A|]. split; [exact B|].
  apply IH; [exact D|]. now rewrite <- app_assoc.
Qed.
Lemma good_app' data l1 l2 : good data [] l1 -> good data [] l2 -> good data [] (l1 ++ l2).
Proof. intros H1 H2. apply good_app; [exact H1|]. apply (good_more (b := [])); [intros x []|exact H2]. Qed.
Lemma good_in data l : forall b m, good data b l -> In m l -> fst (fst m) < snd (fst m).
Proof. induction l as [|x l IH]; intros b m H I; [destruct I|]. destruct H as (A & _ & D). destruct I as [<-|I]; [exact A|exact (IH _ _ D I)]. Qed.

Lemma own_mark (t : tree G) k : annotated (pr_node (pmeaning k t)) = true ->
  In (k, k + List.length (tree_yield t), pr_node (pmeaning k t)) (pr_annotations (pmeaning k t)).
Proof.
  destruct t as [c|A r f]; [intro H; discriminate H|]. rewrite meaning_node, yield_node. destruct (rep_rule A r); [intro H; discriminate H|].
  unfold p_act, node_act. destruct (run_action pyfun (snd r) _) as [nodes more]. cbn [pr_node pr_annotations]. intro H. rewrite H. apply in_or_app. right. now left.
Qed.
Lemma own_marks (f : forest G) : forall k v, In v (map (@pr_node val vcomplaint) (pmeanings k f)) -> annotated v = true ->
  exists i j, k <= i /\ j <= k + List.length (forest_yield f) /\ In (i, j, v) (anns (pmeanings k f)).
Proof.
  induction f as [|t f IH]; intros k v I A; [destruct I|]. rewrite meanings_fcons in *. rewrite yield_fcons, app_length. cbn [map flat_map] in *. destruct I as [<-|I].
  - exists k, (k + List.length (tree_yield t)). split; [lia|]. split; [lia|]. apply in_or_app. left. now apply own_mark.
  - destruct (IH _ _ I A) as (i & j & L1 & L2 & I'). exists i, j. split; [lia|]. split; [lia|]. apply in_or_app. now right.
Qed.
Lemma collapse_annotated nodes : annotated (collapse nodes) = true -> In (collapse nodes) nodes.
Proof.
  unfold collapse. destruct (filter _ nodes) as [|n [|n' l]] eqn:E; try discriminate. intros _. assert (I : In n (filter (fun v => negb (is_vskip v)) nodes)) by (rewrite E; now left).
  apply filter_In in I. exact (proj1 I).
Qed.
Lemma bslice_mid (pre w post : str) : bslice (pre ++ w ++ post) (List.length pre) (List.length pre + List.length w) = w.
Proof.
  unfold bslice. replace (List.length pre + List.length w - List.length pre) with (List.length w) by lia.
  rewrite skipn_app, skipn_all, Nat.sub_diag. cbn [skipn app]. rewrite firstn_app, firstn_all, Nat.sub_diag. cbn [firstn]. apply app_nil_r.
Qed.

Variable nts : list symbol.
Hypothesis nts_closed : @closed G nts.
Hypothesis nts_fine : forallb symbol_fine nts = true.

Lemma rule_good (r : rule) (f : forest G) pre post : rule_fine r = true -> @forest_of G (map to_sym (fst r)) f ->
  let data := pre ++ forest_yield f ++ post in
  let k := List.length pre in
  good data [] (anns (pmeanings k f)) -> forall A : nt G, good data [] (pr_annotations (p_act pyfun annotated A (r : rl G) k (k + List.length (forest_yield f)) (pmeanings k f))).
Proof.
  intros RF F data k Gd A. unfold p_act, node_act.
  assert (M : means_seq rec_rules pyfun (fst r) (forest_yield f) (map (@pr_node val vcomplaint) (pmeanings k f)) (flat_map (@pr_complaints val vcomplaint) (pmeanings k f))).
  { apply seq_forest. exists f. split; [exact F|]. split; [reflexivity|].
    pose proof (proj1 (proj2 (forget_meaning_aux rec_rules pyfun annotated) f k)) as E. rewrite <- E. now rewrite map_meanings_forget, flat_meanings_forget. }
  destruct (seq_parts (proj2 (Forall_forall _ _) (fun x _ => @kind_ok x)) M) as (ws & P & Ew).
  pose proof (eval_ok (snd r) P) as Ev. rewrite Ew in Ev.
  destruct (run_action pyfun (snd r) _) as [nodes more]. cbn [fst] in Ev. cbn [pr_annotations]. fold (collapse nodes).
  apply good_app; [exact Gd|]. cbn [app]. destruct (annotated (collapse nodes)) eqn:An; [|exact Logic.I]. pose proof (collapse_annotated An) as In_.
  assert (SafeCase : sat Safe (forest_yield f) (map (@pr_node val vcomplaint) (pmeanings k f)) nodes ->
    good data (anns (pmeanings k f)) [(k, k + List.length (forest_yield f), collapse nodes)]).
  { intro Sf. destruct (own_marks (Sf _ In_ An) An) as (i & j & L1 & L2 & I). pose proof (good_in Gd I) as L3. cbn [fst snd] in L3. cbn [good fst snd]. split; [lia|]. split; [|exact Logic.I].
    right. exists (i, j, collapse nodes). cbn [fst snd]. split; [exact I|lia]. }
  unfold rule_fine in RF. destruct (eval (snd r) (map kind_of (fst r))) as [ks|c| |].
  - exact (SafeCase (@sat_safe (Cover ks) _ _ _ eq_refl Ev)).
  - cbn [sat] in Ev. subst nodes. apply andb_true_iff in RF. destruct RF as [RF RC]. assert (N : forest_yield f <> []) by (apply (nonempty_seq (proj2 (Forall_forall _ _) (fun x _ => @nonempty_ok x)) RF M)).
    cbn [good fst snd]. split; [destruct (forest_yield f); [now elim N|cbn [List.length]; lia]|]. split; [|exact Logic.I]. left. unfold exact_at. cbn [fst snd]. unfold data, k. rewrite bslice_mid. split; [exact N|]. exists c. split; [reflexivity|].
    intros b E. rewrite E in RC. exact (chars_seq (proj2 (Forall_forall _ _) (fun x _ => @chars_ok b x)) RC M).
  - exact (SafeCase Ev).
  - discriminate RF.
Qed.

Lemma tree_good :
  (forall (t : tree G) (x : sym symbol) pre post, @tree_of G x t -> (forall B, x = Nt B -> In B nts) -> good (pre ++ tree_yield t ++ post) [] (pr_annotations (pmeaning (List.length pre) t))) /\
  (forall (f : forest G) (xs : list (sym symbol)) pre post, @forest_of G xs f -> (forall B, In (Nt B) xs -> In B nts) ->
     good (pre ++ forest_yield f ++ post) [] (anns (pmeanings (List.length pre) f)) /\ good (pre ++ forest_yield f ++ post) [] (anns (pelements (List.length pre) f))).
Proof.
  apply tree_forest_ind.
  - intros c x pre post _ _. exact Logic.I.
  - intros A r f IH x pre post T C. inversion T as [|A' r' f' Ir F]; subst. specialize (C A eq_refl).
    destruct (IH (g_rhs r) pre post F) as [M E]. { intros B I. exact (nts_closed C Ir I). }
    rewrite meaning_node, yield_node. destruct (rep_rule A r); [exact E|].
    apply rule_good; [|exact F|exact M]. pose proof (proj1 (forallb_forall _ _) nts_fine A C) as S. exact (proj1 (forallb_forall _ _) S r Ir).
  - intros xs pre post _ _. split; exact Logic.I.
  - intros t IHt f IHf xs pre post F C. inversion F as [|x ss t' f' T F']; subst. rewrite meanings_fcons, elements_fcons, yield_fcons.
    assert (E1 : pre ++ (tree_yield t ++ forest_yield f) ++ post = pre ++ tree_yield t ++ (forest_yield f ++ post)) by now rewrite <- !app_assoc.
    assert (E2 : pre ++ (tree_yield t ++ forest_yield f) ++ post = (pre ++ tree_yield t) ++ forest_yield f ++ post) by now rewrite <- !app_assoc.
    assert (Gt : good (pre ++ (tree_yield t ++ forest_yield f) ++ post) [] (pr_annotations (pmeaning (List.length pre) t))).
    { rewrite E1. apply (IHt x); [exact T|]. intros B ->. apply C. now left. }
    assert (Gf : good (pre ++ (tree_yield t ++ forest_yield f) ++ post) [] (anns (pmeanings (List.length pre + List.length (tree_yield t)) f))).
    { rewrite E2, <- app_length. apply (IHf ss); [exact F'|]. intros B I. apply C. now right. }
    split.
    + cbn [flat_map]. now apply good_app'.
    + rewrite flat_map_app. apply good_app'; [|exact Gf]. destruct t as [c|A r g]; [exact Logic.I|]. destruct (rep_rule A r) eqn:R; [|exact Logic.I].
      rewrite meaning_node, R in Gt. exact Gt.
Qed.

(** ** What is shown *)

(** Each object stands for the text that it was made of. *)
Definition verbatim (cb : chunk val * str) : Prop :=
  match fst cb with
  | Bytes b => snd cb = b
  | Obj o => snd cb <> [] /\ exists c, o = VObj c [VStr (snd cb)] /\ forall b, alphabet c = Some b -> all_in b (snd cb)
  end.
Lemma splice_loop_verbatim data l : forall before i,
  good data before l -> (forall m, In m before -> fst (fst m) < i) ->
  exists slices, let chunks := splice_loop data i l in List.length slices = List.length chunks /\ Forall verbatim (combine chunks slices) /\ List.concat slices = skipn i data.
Proof.
  induction l as [|[[a b] o] l IH]; intros before i H Q; cbn [splice_loop].
  - exists [skipn i data]. split; [reflexivity|]. split; [|apply app_nil_r]. constructor; [reflexivity|constructor].
  - destruct H as (H1 & H2 & H3). cbn [fst snd] in *. destruct (i <=? a) eqn:L.
    + apply Nat.leb_le in L. destruct (IH _ b H3) as (sl & S1 & S2 & S3).
      { intros m I. apply in_app_or in I. destruct I as [I|[<-|[]]]; [specialize (Q m I); lia|exact H1]. }
      exists (bslice data i a :: bslice data a b :: sl). cbn [List.length combine List.concat]. split; [now rewrite S1|]. split.
      * constructor; [reflexivity|]. constructor; [|exact S2]. destruct H2 as [H2|(m' & I & H2)]; [exact H2|]. specialize (Q m' I). cbn [fst snd] in *. lia.
      * rewrite S3, bslice_skipn by lia. apply bslice_skipn. exact L.
    + apply Nat.leb_gt in L. apply (IH _ _ H3). intros m I. apply in_app_or in I. destruct I as [I|[<-|[]]]; [now apply Q|exact L].
Qed.
Lemma drop_empty (chunks : list (chunk val)) : forall slices, List.length slices = List.length chunks -> Forall verbatim (combine chunks slices) ->
  exists slices', let chunks' := filter (fun c => match c with Bytes [] => false | _ => true end) chunks in
    List.length slices' = List.length chunks' /\ Forall verbatim (combine chunks' slices') /\ List.concat slices' = List.concat slices.
Proof.
  induction chunks as [|c chunks IH]; intros [|sl slices] L F; try discriminate L; [now exists []|]. cbn [combine] in F. inversion F as [|? ? F1 F2]; subst. injection L as L.
  destruct (IH slices L F2) as (sl' & A & B & D). cbn [filter]. destruct (match c with Bytes [] => false | _ => true end) eqn:E.
  - exists (sl :: sl'). cbn [List.length combine List.concat]. split; [now rewrite A|]. split; [now constructor|now rewrite D].
  - destruct c as [[|]|]; try discriminate E. cbn in F1. subst sl. exists sl'. split; [exact A|]. split; [exact B|exact D].
Qed.
Lemma splice_verbatim (t : tree G) B : @tree_of G (Nt B) t -> In B nts ->
  let data := tree_yield t in
  exists slices, let chunks := splice data (pr_annotations (pmeaning 0 t)) in
    List.length slices = List.length chunks /\ Forall verbatim (combine chunks slices) /\ List.concat slices = data.
Proof.
  intros T I data. assert (Gd : good data [] (pr_annotations (pmeaning 0 t))).
  { pose proof (proj1 tree_good t (Nt B) [] [] T) as H. cbn [app List.length] in H. rewrite app_nil_r in H. apply H. intros B' E. injection E as <-. exact I. }
  destruct (splice_loop_verbatim (i := 0) Gd (fun m I => False_ind _ I)) as (sl & A & D & E). destruct (drop_empty A D) as (sl' & A' & D' & E'). exists sl'. split; [exact A'|]. split; [exact D'|]. rewrite E', E. reflexivity.
Qed.
End Analysis.
