(** C82: what it means for two values to be equal, for one to be before another,
    and for a value to be true. *)
From Coq Require Import ZifyBool ZifyNat ZifyN String.
From Verif Require Import Base HttpText Grammar Actions Structure Header Values.
From Verif Require P_Util P_Inputs SyntaxDates P_Reports.
Open Scope nat_scope.
Open Scope list_scope.
Unset Strict Implicit.
Local Open Scope string_scope.
Local Open Scope list_scope.

(** ** What values are *)

(** Classes of strings that compare without case, and that compare as they are. *)
Definition without_case : list string :=
  ["CaseInsensitive"; "FieldName"; "TransferCoding"; "ContentCoding"; "ConnectionOption"; "MediaType"; "LanguageTag";
   "Charset"; "RangeUnit"; "CacheDirective"; "AuthScheme"; "HSTSDirective"; "Preference"; "ForwardedParam"].
Definition with_case : list string := ["ProtocolString"; "HTTPVersion"; "Method"; "UpgradeToken"; "ProductName"; "AltSvcParam"].
(** A text, and whether it compares without case. *)
Inductive text : val -> bool -> str -> Prop :=
| text_plain x : text (VStr x) false x
| text_caseless c x : In c without_case -> text (VObj (s c) [VStr x]) true x
| text_cased c x : In c with_case -> text (VObj (s c) [VStr x]) false x.
(** A number, in thousandths. *)
Inductive number : val -> Z -> Prop :=
| number_int z : number (VInt z) (z * 1000)
| number_true : number (VBool true) 1000
| number_false : number (VBool false) 0
| number_float x : number (VFloat x) (thousandths x)
| number_code x z : int_of x = VInt z -> number (VObj (s "WarnCode") [VStr x]) (z * 1000).
(** A point in time, in microseconds. *)
Inductive moment : val -> Z -> Prop :=
| moment_date y mo d h mi x : moment (VObj (s "datetime") [VInt y; VInt mo; VInt d; VInt h; VInt mi; VInt x])
    ((ordinal y mo d * 86400 + h * 3600 + mi * 60 + x) * 1000000)
| moment_instant z : moment (VObj (s "instant") [VInt z]) z.
(** A tuple, named or not. *)
Definition named_tuples : list string :=
  ["Parametrized"; "Versioned"; "HeaderEntry"; "EntityTag"; "RangeSpecifier"; "ContentRange"; "WarningValue"; "ExtValue"].
Inductive tuple : val -> list val -> Prop :=
| tuple_plain l : tuple (VTuple l) l
| tuple_named c l : In c named_tuples -> tuple (VObj (s c) l) l.
(** Named tuples that stand for their first component. *)
Inductive stands_for : val -> val -> Prop :=
| stands_item x l : stands_for (VObj (s "Parametrized") (x :: l)) x
| stands_code x l : stands_for (VObj (s "WarningValue") (x :: l)) x.
(** Anything else: nothing, octets, other objects. *)
Definition other (v : val) : Prop :=
  (forall c x, ~ text v c x) /\ (forall n, ~ number v n) /\ (forall t, ~ moment v t) /\ (forall l, ~ tuple v l) /\
  (forall l, v <> VList l) /\ (forall l, v <> VObj (s "MultiDict") l) /\ (forall x, v <> VUnavailable x).

(** ** Equality *)

Inductive equal : val -> val -> Prop :=
| equal_text a b c d x y : text a c x -> text b d y -> (if c || d then Forall2 P_Util.same_letter x y else x = y) -> equal a b
| equal_number a b n : number a n -> number b n -> equal a b
| equal_moment a b t : moment a t -> moment b t -> equal a b
| equal_tuple a b l m : tuple a l -> tuple b m -> Forall2 equal l m -> equal a b
| equal_list l m : Forall2 equal l m -> equal (VList l) (VList m)
| equal_dict l m : Forall2 equal l m -> equal (VObj (s "MultiDict") l) (VObj (s "MultiDict") m)
| equal_unavailable x y : x <> VNone -> equal x y -> equal (VUnavailable x) (VUnavailable y)
| equal_other a : other a -> equal a a
| equal_left a x b : stands_for a x -> (forall m, ~ tuple b m) -> equal x b -> equal a b
| equal_right a b x : stands_for b x -> (forall l, ~ tuple a l) -> (forall u, a <> VUnavailable u) -> equal a x -> equal a b.

(** *** The model's tests *)

Lemma mem_class_in c l : mem_class c (map s l) = true <-> exists n, In n l /\ c = s n.
Proof.
  unfold mem_class. rewrite existsb_exists. split.
  - intros [x [I H]]. apply in_map_iff in I. destruct I as [n [<- I]]. apply str_eqb_eq in H. eauto.
  - intros [n [I ->]]. exists (s n). split; [now apply in_map|apply str_eqb_refl].
Qed.
Lemma fields_in c : is_tuple_class c = true <-> exists n, In n named_tuples /\ c = s n.
Proof.
  unfold is_tuple_class.
  assert (G : forall t, match fields_of t c with Some _ => true | None => false end = true <-> In c (map fst t)).
  { induction t as [|[k fs] t IH]; cbn [fields_of map fst In]; [split; [discriminate|intros []]|]. destruct (str_eqb k c) eqn:Q.
    - apply str_eqb_eq in Q. split; auto.
    - rewrite IH. split; [auto|intros [H|H]; [subst; rewrite str_eqb_refl in Q; discriminate|exact H]]. }
  rewrite G. change (map fst tuple_classes) with (map s named_tuples). rewrite in_map_iff. split; intros [n [A B]]; exists n; auto.
Qed.
Lemma text_iff v c x : text v c x <-> str_like v = Some (if c then CI x else Plain x).
Proof.
  split.
  - intros [y|n y I|n y I]; [reflexivity| |]; cbn [str_like].
    + replace (mem_class (s n) ci_classes) with true; [reflexivity|]. symmetry. apply (mem_class_in (s n) without_case). eauto.
    + replace (mem_class (s n) ci_classes) with false; [replace (mem_class (s n) plain_classes) with true; [reflexivity|symmetry; apply (mem_class_in (s n) with_case); eauto]|].
      repeat (destruct I as [<-|I]; [reflexivity|]). destruct I.
  - destruct v as [y| | | | | | | | |k l| |]; cbn [str_like]; try discriminate.
    + destruct c; [discriminate|]. injection 1 as <-. constructor.
    + destruct l as [|[y| | | | | | | | | | |] [|]]; try discriminate. destruct (mem_class k ci_classes) eqn:A.
      * apply (mem_class_in k without_case) in A. destruct A as [n [I ->]]. destruct c; [|discriminate]. injection 1 as <-. now constructor.
      * destruct (mem_class k plain_classes) eqn:B; [|discriminate]. apply (mem_class_in k with_case) in B. destruct B as [n [I ->]]. destruct c; [discriminate|]. injection 1 as <-. now constructor.
Qed.
Lemma number_iff v n : number v n <-> number_like v = Some n.
Proof.
  split.
  - intros [z| | |x|x z H]; try reflexivity. unfold number_like. now rewrite str_eqb_refl, H.
  - destruct v as [y| | | |[]|z|x| | |k l| |]; unfold number_like; try discriminate; try (injection 1 as <-; constructor).
    destruct l as [|[y| | | | | | | | | | |] [|]]; try discriminate. destruct (str_eqb k (s "WarnCode")) eqn:Q; [|discriminate]. apply str_eqb_eq in Q. subst k.
    destruct (int_of y) eqn:I; try discriminate. injection 1 as <-. now constructor.
Qed.
Lemma moment_iff v t : moment v t <-> time_like v = Some t.
Proof.
  split.
  - intros [y mo d h mi x|z]; unfold time_like; rewrite str_eqb_refl; [|reflexivity]. f_equal. unfold seconds_of_day, micro. lia.
  - destruct v as [| | | | | | | | |k l| |]; unfold time_like; try discriminate.
    destruct l as [|v l]; [discriminate|]. destruct v as [| | | | |y| | | | | |]; try discriminate. destruct l as [|v l].
    + destruct (str_eqb k (s "instant")) eqn:Q; [|discriminate]. apply str_eqb_eq in Q. subst k. injection 1 as <-. constructor.
    + destruct v as [| | | | |mo| | | | | |]; try discriminate. destruct l as [|v l]; [discriminate|]. destruct v as [| | | | |d| | | | | |]; try discriminate. destruct l as [|v l]; [discriminate|].
      destruct v as [| | | | |h| | | | | |]; try discriminate. destruct l as [|v l]; [discriminate|]. destruct v as [| | | | |mi| | | | | |]; try discriminate. destruct l as [|v l]; [discriminate|].
      destruct v as [| | | | |x| | | | | |]; try discriminate. destruct l as [|v l]; [|discriminate].
      destruct (str_eqb k (s "datetime")) eqn:Q; [|discriminate]. apply str_eqb_eq in Q. subst k. intro H. injection H as <-.
      replace (_ * micro)%Z with ((ordinal y mo d * 86400 + h * 3600 + mi * 60 + x) * 1000000)%Z by (unfold seconds_of_day, micro; lia). constructor.
Qed.
Lemma tuple_iff v l : tuple v l <-> items_of v = Some l.
Proof.
  split.
  - intros [k|c k I]; [reflexivity|]. cbn [items_of]. replace (is_tuple_class (s c)) with true; [reflexivity|]. symmetry. apply fields_in. eauto.
  - destruct v as [| | | | | | | |k|c k| |]; cbn [items_of]; try discriminate; [injection 1 as <-; constructor|].
    destruct (is_tuple_class c) eqn:Q; [|discriminate]. injection 1 as <-. apply fields_in in Q. destruct Q as [n [I ->]]. now constructor.
Qed.
Lemma no_tuple v : (forall l, ~ tuple v l) <-> items_of v = None.
Proof.
  split.
  - intro H. destruct (items_of v) as [l|] eqn:Q; [|reflexivity]. apply tuple_iff in Q. destruct (H l Q).
  - intros H l T. apply tuple_iff in T. congruence.
Qed.
Lemma stands_iff v x : stands_for v x <-> exists c l, v = VObj c (x :: l) /\ is_transparent c = true.
Proof.
  unfold is_transparent. split.
  - intros [y l|y l]; eexists; eexists; (split; [reflexivity|]); rewrite str_eqb_refl; [reflexivity|apply orb_true_r].
  - intros (c & l & -> & H). apply orb_true_iff in H. destruct H as [H|H]; apply str_eqb_eq in H; subst c; constructor.
Qed.
Lemma transparent_tuple c : is_transparent c = true -> is_tuple_class c = true.
Proof. unfold is_transparent. intro H. apply orb_true_iff in H. destruct H as [H|H]; apply str_eqb_eq in H; subst c; reflexivity. Qed.
Lemma stands_tuple v x : stands_for v x -> exists l, items_of v = Some (x :: l).
Proof. intros [y l|y l]; exists l; reflexivity. Qed.

(** Which of them a tuple is. *)
Lemma tuple_only v l : items_of v = Some l -> str_like v = None /\ number_like v = None /\ time_like v = None /\ (forall k, v <> VList k) /\ (forall k, v <> VObj (s "MultiDict") k) /\ forall u, v <> VUnavailable u.
Proof.
  intro H. apply tuple_iff in H. destruct H as [k|c k I]; [repeat split; discriminate|].
  assert (D : mem_class (s c) ci_classes = false /\ mem_class (s c) plain_classes = false /\ str_eqb (s c) (s "WarnCode") = false /\ str_eqb (s c) (s "datetime") = false /\
    str_eqb (s c) (s "instant") = false /\ str_eqb (s c) (s "MultiDict") = false).
  { repeat (destruct I as [<-|I]; [repeat split; reflexivity|]). destruct I. }
  destruct D as (D1 & D2 & D3 & D4 & D5 & D6). split; [|split; [|split; [|split; [|split]]]]; try discriminate.
  - cbn [str_like]. destruct k as [|[] [|]]; try reflexivity. now rewrite D1, D2.
  - unfold number_like. destruct k as [|[] [|]]; try reflexivity. now rewrite D3.
  - unfold time_like. rewrite D4, D5. destruct k as [|[] k]; try reflexivity. destruct k as [|[] k]; try reflexivity. destruct k as [|[] k]; try reflexivity.
    destruct k as [|[] k]; try reflexivity. destruct k as [|[] k]; try reflexivity. destruct k as [|[] [|]]; reflexivity.
  - intros u H. injection H as H _. rewrite H, str_eqb_refl in D6. discriminate.
Qed.

Lemma text_only v x : str_like v = Some x -> number_like v = None /\ time_like v = None /\ items_of v = None /\ (forall k, v <> VList k) /\ (forall k, v <> VObj (s "MultiDict") k) /\ forall u, v <> VUnavailable u.
Proof.
  intro H. assert (T : exists c y, text v c y). { destruct x as [y|y]; [exists false|exists true]; exists y; now apply text_iff. }
  destruct T as [c [y [z|n z I|n z I]]]; [repeat split; discriminate| |].
  all: assert (D : is_tuple_class (s n) = false /\ str_eqb (s n) (s "WarnCode") = false /\ str_eqb (s n) (s "MultiDict") = false) by (repeat (destruct I as [<-|I]; [repeat split; reflexivity|]); destruct I).
  all: destruct D as (D1 & D2 & D3); unfold number_like, time_like; cbn [items_of]; rewrite D1, D2; split; [reflexivity|split; [reflexivity|split; [reflexivity|split; [discriminate|split; [|discriminate]]]]].
  all: intros u Q; injection Q as Q _; rewrite Q, str_eqb_refl in D3; discriminate.
Qed.
Lemma number_only v x : number_like v = Some x -> time_like v = None /\ items_of v = None /\ (forall k, v <> VList k) /\ (forall k, v <> VObj (s "MultiDict") k) /\ forall u, v <> VUnavailable u.
Proof.
  intro H. apply number_iff in H. destruct H as [z| | |z|y z H]; repeat split; discriminate.
Qed.
Lemma moment_only v x : time_like v = Some x -> items_of v = None /\ (forall k, v <> VList k) /\ (forall k, v <> VObj (s "MultiDict") k) /\ forall u, v <> VUnavailable u.
Proof.
  intro H. apply moment_iff in H. destruct H; repeat split; discriminate.
Qed.
Lemma other_iff v : other v <-> str_like v = None /\ number_like v = None /\ time_like v = None /\ items_of v = None /\ (forall k, v <> VList k) /\ (forall k, v <> VObj (s "MultiDict") k) /\ forall u, v <> VUnavailable u.
Proof.
  unfold other. rewrite no_tuple. split; intros (A & B & C & D).
  - split; [|split; [|split; [|exact D]]].
    + destruct (str_like v) as [[y|y]|] eqn:Q; [destruct (A false y)|destruct (A true y)|reflexivity]; now apply text_iff.
    + destruct (number_like v) as [y|] eqn:Q; [destruct (B y); now apply number_iff|reflexivity].
    + destruct (time_like v) as [y|] eqn:Q; [destruct (C y); now apply moment_iff|reflexivity].
  - split; [|split; [|split; [|exact D]]].
    + intros c x T. apply text_iff in T. congruence.
    + intros c T. apply number_iff in T. congruence.
    + intros c T. apply moment_iff in T. congruence.
Qed.

(** Pairwise. *)
Definition all2 (f : val -> val -> bool) := fix all2 (l m : list val) {struct l} : bool :=
  match l, m with [], [] => true | x :: l', y :: m' => f x y && all2 l' m' | _, _ => false end.
Lemma all2_iff f (R : val -> val -> Prop) l m : (forall x y, In x l -> In y m -> f x y = true <-> R x y) -> (all2 f l m = true <-> Forall2 R l m).
Proof.
  revert m. induction l as [|x l IH]; intros [|y m] H; cbn [all2].
  - split; auto.
  - split; [discriminate|intro F; inversion F].
  - split; [discriminate|intro F; inversion F].
  - rewrite andb_true_iff, (H x y) by (now left). rewrite (IH m) by (intros; apply H; now right). split; [intros []; now constructor|intro F; now inversion F].
Qed.
Definition peeled (a p : val) : bool :=
  match a with
  | VList l => match p with VList m => all2 veq l m | _ => false end
  | VObj c l => if str_eqb c (s "MultiDict") then match p with VObj d m => str_eqb d (s "MultiDict") && all2 veq l m | _ => false end else scalar_eq a p
  | _ => scalar_eq a p
  end.
Lemma veq_tuple a l b : items_of a = Some l -> veq a b = match items_of b with Some m => all2 veq l m | None => match a with VObj c (x :: _) => if is_transparent c then veq x b else false | _ => false end end.
Proof.
  destruct a as [| | | | | | | |k|c k| |]; cbn [items_of]; try discriminate.
  - injection 1 as <-. reflexivity.
  - destruct (is_tuple_class c) eqn:T; [|discriminate]. injection 1 as <-. cbn [veq]. rewrite T. destruct (items_of b); [reflexivity|]. destruct k; [now destruct (is_transparent c)|reflexivity].
Qed.
Lemma veq_peel a b : items_of a = None -> (forall u, a <> VUnavailable u) -> veq a b = peeled a (peel b).
Proof.
  destruct a as [| | | | | | |l|l|c l|u|]; cbn [items_of]; intros T U; try reflexivity; try discriminate.
  - destruct (is_tuple_class c) eqn:Q; [discriminate|]. cbn [veq]. rewrite Q. reflexivity.
  - destruct (U u eq_refl).
Qed.

(** The size of a value. *)
Fixpoint size (v : val) : nat :=
  let sizes := fix sizes (l : list val) : nat := match l with [] => 0 | x :: r => size x + sizes r end in
  match v with
  | VList l | VTuple l | VObj _ l => S (sizes l)
  | VUnavailable x => S (size x)
  | _ => 1
  end.
Definition sizes := fix sizes (l : list val) : nat := match l with [] => 0 | x :: r => size x + sizes r end.
Lemma size_in x l : In x l -> size x <= sizes l.
Proof. induction l as [|y l IH]; [intros []|]. cbn [sizes]. intros [->|H]; [|specialize (IH H)]; lia. Qed.
Lemma size_list l : size (VList l) = S (sizes l). Proof. reflexivity. Qed.
Lemma size_obj c l : size (VObj c l) = S (sizes l). Proof. reflexivity. Qed.
Lemma size_items v l : items_of v = Some l -> size v = S (sizes l).
Proof. destruct v; cbn [items_of]; try discriminate; [|destruct (is_tuple_class _); [|discriminate]]; injection 1 as <-; reflexivity. Qed.

(** What an equality comes from. *)
Lemma equal_inv a b : equal a b ->
  (exists x y, str_like a = Some x /\ str_like b = Some y /\ py_eq x y = true) \/
  (exists n, number_like a = Some n /\ number_like b = Some n) \/
  (exists t, time_like a = Some t /\ time_like b = Some t) \/
  (exists l m, items_of a = Some l /\ items_of b = Some m /\ Forall2 equal l m) \/
  (exists l m, a = VList l /\ b = VList m /\ Forall2 equal l m) \/
  (exists l m, a = VObj (s "MultiDict") l /\ b = VObj (s "MultiDict") m /\ Forall2 equal l m) \/
  (exists x y, a = VUnavailable x /\ b = VUnavailable y /\ x <> VNone /\ equal x y) \/
  (a = b /\ other a) \/
  (exists x, stands_for a x /\ items_of b = None /\ equal x b) \/
  (exists x, stands_for b x /\ items_of a = None /\ (forall u, a <> VUnavailable u) /\ equal a x).
Proof.
  intros [v w c d x y A B H|v w n A B|v w t A B|v w l m A B H|l m H|l m H|x y H H'|v H|v x w H T H'|v w x H T U H'].
  - left. apply text_iff in A, B. eexists. eexists. split; [exact A|]. split; [exact B|]. destruct c, d; cbn [orb] in H; cbn [py_eq]; try (now apply P_Util.C51_equality); subst; apply str_eqb_refl.
  - right; left. apply number_iff in A, B. eauto.
  - do 2 right; left. apply moment_iff in A, B. eauto.
  - do 3 right; left. apply tuple_iff in A, B. eauto.
  - do 4 right; left. eauto.
  - do 5 right; left. eauto.
  - do 6 right; left. eauto 6.
  - do 7 right; left. auto.
  - do 8 right; left. exists x. split; [exact H|]. split; [now apply no_tuple|exact H'].
  - do 9 right. exists x. split; [exact H|]. split; [now apply no_tuple|]. split; assumption.
Qed.

Definition is_dict (v : val) : option (list val) := match v with VObj c l => if str_eqb c (s "MultiDict") then Some l else None | _ => None end.
Lemma is_dict_iff v l : is_dict v = Some l <-> v = VObj (s "MultiDict") l.
Proof.
  split.
  - destruct v; cbn [is_dict]; try discriminate. destruct (str_eqb _ _) eqn:Q; [|discriminate]. apply str_eqb_eq in Q. injection 1 as <-. now subst.
  - intros ->. reflexivity.
Qed.
Lemma py_eq_text x y a b : str_like a = Some x -> str_like b = Some y -> py_eq x y = true -> equal a b.
Proof.
  intros A B H. destruct x as [x|x], y as [y|y]; cbn [py_eq] in H.
  - apply (@equal_text a b false false x y); [now apply text_iff|now apply text_iff|now apply str_eqb_eq].
  - apply (@equal_text a b false true x y); [now apply text_iff|now apply text_iff|now apply P_Util.C51_equality].
  - apply (@equal_text a b true false x y); [now apply text_iff|now apply text_iff|now apply P_Util.C51_equality].
  - apply (@equal_text a b true true x y); [now apply text_iff|now apply text_iff|now apply P_Util.C51_equality].
Qed.
(** Values that are none of the compound ones. *)
Lemma scalar_iff a b : items_of a = None -> (forall u, a <> VUnavailable u) -> (forall l, a <> VList l) -> (forall l, a <> VObj (s "MultiDict") l) ->
  (forall x, ~ stands_for b x) -> (scalar_eq a b = true <-> equal a b).
Proof.
  intros Ta Ua La Da Sb. split.
  - unfold scalar_eq. destruct (str_like a) as [x|] eqn:X, (str_like b) as [y|] eqn:Y; try discriminate; [now apply py_eq_text|].
    destruct (number_like a) as [m|] eqn:NA, (number_like b) as [n|] eqn:NB; try discriminate.
    { intro Q. apply Z.eqb_eq in Q. subst n. apply (@equal_number a b m); now apply number_iff. }
    destruct (time_like a) as [t|] eqn:MA, (time_like b) as [u|] eqn:MB; try discriminate.
    { intro Q. apply Z.eqb_eq in Q. subst u. apply (@equal_moment a b t); now apply moment_iff. }
    destruct (val_dec a b) as [<-|]; [|discriminate]. intros _. apply equal_other. apply other_iff. auto 10.
  - intro E. apply equal_inv in E. unfold scalar_eq.
    destruct E as [(x & y & A & B & H)|[(n & A & B)|[(t & A & B)|[(l & m & A & _)|[(l & m & A & _)|[(l & m & A & _)|[(x & y & A & _)|[(A & O)|[(x & A & _)|(x & A & _)]]]]]]]]].
    + now rewrite A, B.
    + rewrite A, B. assert (SA : str_like a = None). { destruct (str_like a) eqn:Q; [|reflexivity]. apply text_only in Q. destruct Q as [Q _]. congruence. }
      assert (SB : str_like b = None). { destruct (str_like b) eqn:Q; [|reflexivity]. apply text_only in Q. destruct Q as [Q _]. congruence. }
      rewrite SA, SB. apply Z.eqb_refl.
    + rewrite A, B.
      assert (SA : str_like a = None). { destruct (str_like a) eqn:Q; [|reflexivity]. apply text_only in Q. destruct Q as [_ [Q _]]. congruence. }
      assert (SB : str_like b = None). { destruct (str_like b) eqn:Q; [|reflexivity]. apply text_only in Q. destruct Q as [_ [Q _]]. congruence. }
      assert (NA : number_like a = None). { destruct (number_like a) eqn:Q; [|reflexivity]. apply number_only in Q. destruct Q as [Q _]. congruence. }
      assert (NB : number_like b = None). { destruct (number_like b) eqn:Q; [|reflexivity]. apply number_only in Q. destruct Q as [Q _]. congruence. }
      rewrite SA, SB, NA, NB. apply Z.eqb_refl.
    + congruence.
    + destruct (La _ A).
    + destruct (Da _ A).
    + destruct (Ua _ A).
    + subst b. apply other_iff in O. destruct O as (-> & -> & -> & _). now destruct (val_dec a a).
    + apply stands_tuple in A. destruct A as [l A]. congruence.
    + destruct (Sb _ A).
Qed.
Lemma peel_cases b : (peel b = b /\ forall x, ~ stands_for b x) \/ exists x, stands_for b x /\ peel b = peel x /\ size x < size b.
Proof.
  destruct b as [| | | | | | | | |c [|x l]| |]; try (left; split; [reflexivity|]; intros y H; apply stands_iff in H; destruct H as (c' & l' & Q & _); discriminate Q).
  destruct (is_transparent c) eqn:T.
  - right. exists x. split; [apply stands_iff; eauto|]. cbn [peel]. rewrite T. split; [reflexivity|]. rewrite size_obj. cbn [sizes]. lia.
  - left. cbn [peel]. rewrite T. split; [reflexivity|]. intros y H. apply stands_iff in H. destruct H as (c' & l' & Q & T'). injection Q as <- _ _. congruence.
Qed.

Lemma veq_equal n : forall a b, size a + size b < n -> (veq a b = true <-> equal a b).
Proof.
  induction n as [|n IH]; intros a b SZ; [lia|].
  destruct (items_of a) as [l|] eqn:TA.
  - rewrite (veq_tuple b TA). pose proof (tuple_only TA) as (TA1 & TA2 & TA3 & TA4 & TA5 & TA6).
    destruct (items_of b) as [m|] eqn:TB.
    + rewrite (@all2_iff veq equal l m). 2:{ intros x y X Y. apply IH. apply size_in in X, Y. rewrite (size_items TA), (size_items TB) in SZ. lia. }
      split; [intro F; apply (@equal_tuple a b l m); [now apply tuple_iff|now apply tuple_iff|exact F]|].
      intro E. apply equal_inv in E.
      destruct E as [(x & y & A & B & H)|[(k & A & B)|[(t & A & B)|[(l' & m' & A & B & F)|[(l' & m' & A & _)|[(l' & m' & A & _)|[(x & y & A & _)|[(A & O)|[(x & _ & A & _)|(x & _ & A & _)]]]]]]]]]; try solve [congruence|destruct (TA4 _ A)|destruct (TA5 _ A)|destruct (TA6 _ A)].
      apply other_iff in O. destruct O as (_ & _ & _ & O & _). congruence.
    + assert (G : equal a b <-> exists x, stands_for a x /\ equal x b).
      { split.
        - intro E. apply equal_inv in E.
          destruct E as [(x & y & A & B & H)|[(k & A & B)|[(t & A & B)|[(l' & m' & A & B & F)|[(l' & m' & A & _)|[(l' & m' & A & _)|[(x & y & A & _)|[(A & O)|[(x & A & _ & E)|(x & _ & A & _)]]]]]]]]]; try solve [congruence|destruct (TA4 _ A)|destruct (TA5 _ A)|destruct (TA6 _ A)|eauto].
        - intros [x [A E]]. apply (@equal_left a x b A); [now apply no_tuple|exact E]. }
      rewrite G. clear G. destruct a as [| | | | | | | |k|c [|x k]| |]; try (split; [discriminate|]; intros [y [A _]]; apply stands_iff in A; destruct A as (c' & k' & Q & _); discriminate Q).
      destruct (is_transparent c) eqn:Tr.
      * rewrite IH. 2:{ rewrite size_obj in SZ. cbn [sizes] in SZ. lia. }
        split; [intro E; exists x; split; [apply stands_iff; eauto|exact E]|]. intros [y [A E]]. apply stands_iff in A. destruct A as (c' & k' & Q & _). injection Q as _ <- _. exact E.
      * split; [discriminate|]. intros [y [A _]]. apply stands_iff in A. destruct A as (c' & k' & Q & Tr'). injection Q as <- _ _. congruence.
  - destruct a as [| | | | | | | | | |u|] eqn:AV.
    11:{ split.
      - cbn [veq]. destruct b as [| | | | | | | | | |w|]; try discriminate. rewrite andb_true_iff. intros [N E]. apply equal_unavailable; [intros ->; discriminate N|]. apply IH; [cbn [size] in SZ; lia|exact E].
      - intro E. apply equal_inv in E.
        destruct E as [(x & y & A & B & H)|[(k & A & B)|[(t & A & B)|[(l' & m' & A & B & F)|[(l' & m' & A & _)|[(l' & m' & A & _)|[(x & y & A & B & N & E)|[(A & O)|[(x & A & _)|(x & _ & _ & A & _)]]]]]]]]]; try discriminate.
        + injection A as <-. subst b. cbn [veq]. apply andb_true_iff. split; [now destruct u|]. apply IH; [cbn [size] in SZ; lia|exact E].
        + apply other_iff in O. destruct O as (_ & _ & _ & _ & _ & _ & O). destruct (O u eq_refl).
        + apply stands_tuple in A. destruct A as [k A]. discriminate A.
        + destruct (A u eq_refl). }
    all: rewrite <- AV in *; assert (UA : forall u, a <> VUnavailable u) by (rewrite AV; discriminate); rewrite (veq_peel b TA UA).
    all: destruct (peel_cases b) as [[PB SB]|[w [SB [PB SX]]]].
    all: try (assert (G : equal a b <-> equal a w) by
      (split; [intro E; apply equal_inv in E; destruct (stands_tuple SB) as [k' TB]; pose proof (tuple_only TB) as (TB1 & TB2 & TB3 & TB4 & TB5 & TB6);
        destruct E as [(x' & y & A & B & H)|[(k & A & B)|[(t & A & B)|[(l' & m' & A & B & F)|[(l' & m' & A & B & _)|[(l' & m' & A & B & _)|[(x' & y & A & B & N & E)|[(A & O)|[(x' & A & E & _)|(x' & A & _ & _ & E)]]]]]]]]]; try solve [congruence|destruct (TB4 _ B)|destruct (TB5 _ B)];
        [apply stands_iff in SB, A; destruct SB as (c1 & l1 & Q1 & _), A as (c2 & l2 & Q2 & _); rewrite Q1 in Q2; injection Q2 as _ <- _; exact E]
       |intro E; apply (@equal_right a b w SB); [now apply no_tuple|exact UA|exact E]]);
      rewrite G, PB, <- (veq_peel w TA UA); apply IH; lia).
    all: rewrite PB.
    all: try (subst a; cbn [peeled]; apply scalar_iff; [reflexivity|discriminate|discriminate|discriminate|exact SB]).
    + subst a. cbn [peeled]. rename l into k. split.
      * destruct b as [| | | | | | |m| | | |]; try discriminate. rewrite (@all2_iff veq equal k m); [apply equal_list|].
        intros x y X Y. apply IH. apply size_in in X, Y. rewrite !size_list in SZ. lia.
      * intro E. apply equal_inv in E.
        destruct E as [(x & y & A & B & H)|[(z & A & B)|[(t & A & B)|[(l' & m' & A & B & F)|[(l' & m' & A & B & F)|[(l' & m' & A & _)|[(x & y & A & B & N & E)|[(A & O)|[(x & A & _)|(x & A & _)]]]]]]]]]; try discriminate.
        { injection A as <-. subst b. apply (@all2_iff veq equal k m'); [|exact F]. intros x y X Y. apply IH. apply size_in in X, Y. rewrite !size_list in SZ. lia. }
        { apply other_iff in O. destruct O as (_ & _ & _ & _ & O & _). destruct (O _ eq_refl). }
        { apply stands_tuple in A. destruct A as [z A]. discriminate A. }
        { destruct (SB _ A). }
    + subst a. discriminate TA.
    + destruct (is_dict a) as [k'|] eqn:D.
      * apply is_dict_iff in D. rewrite D in *. clear AV. cbn [peeled]. rewrite str_eqb_refl. split.
        { destruct b as [| | | | | | | | |d m| |]; try discriminate. rewrite andb_true_iff. intros [Q F]. apply str_eqb_eq in Q. subst d. apply equal_dict. revert F. apply (@all2_iff veq equal k' m).
          intros x y X Y. apply IH. apply size_in in X, Y. rewrite !size_obj in SZ. lia. }
        { intro E. apply equal_inv in E.
          destruct E as [(x & y & A & B & H)|[(z & A & B)|[(t & A & B)|[(l' & m' & A & B & F)|[(l' & m' & A & B & F)|[(l' & m' & A & B & F)|[(x & y & A & B & N & E)|[(A & O)|[(x & A & _)|(x & A & _)]]]]]]]]]; try discriminate.
          - apply text_only in A. destruct A as (_ & _ & _ & _ & A & _). destruct (A _ eq_refl).
          - apply number_only in A. destruct A as (_ & _ & _ & A & _). destruct (A _ eq_refl).
          - apply moment_only in A. destruct A as (_ & _ & A & _). destruct (A _ eq_refl).
          - injection A as <-. subst b. rewrite str_eqb_refl. cbn [andb]. apply (@all2_iff veq equal k' m'); [|exact F]. intros x y X Y. apply IH. apply size_in in X, Y. rewrite !size_obj in SZ. lia.
          - apply other_iff in O. destruct O as (_ & _ & _ & _ & _ & O & _). destruct (O _ eq_refl).
          - apply stands_tuple in A. destruct A as [z A]. discriminate A.
          - destruct (SB _ A). }
      * assert (P : peeled a b = scalar_eq a b). { rewrite AV in *. cbn [is_dict] in D. cbn [peeled]. now destruct (str_eqb _ _). }
        rewrite P. apply scalar_iff; [exact TA|exact UA| | |exact SB].
        { rewrite AV. discriminate. }
        { intros l Q. apply is_dict_iff in Q. congruence. }
Qed.

(** ** Theorems *)

Theorem C82_equality : forall a b, veq a b = true <-> equal a b.
Proof. intros a b. apply (@veq_equal (S (size a + size b))). lia. Qed.
Print Assumptions C82_equality.

(** *** Truth *)

Inductive untrue : val -> Prop :=
| untrue_none : untrue VNone
| untrue_text v c : text v c [] -> untrue v
| untrue_bytes : untrue (VBytes [])
| untrue_zero v : number v 0 -> untrue v
| untrue_list : untrue (VList [])
| untrue_tuple v : tuple v [] -> untrue v
| untrue_dict : untrue (VObj (s "MultiDict") [VList []]).
Theorem C82_truth : forall v, truthy_val v = false <-> untrue v.
Proof.
  intro v. split.
  - destruct v as [[|]|[|]| | |[]|z|x|[|]|[|]|c l| |]; cbn [truthy_val]; try discriminate; intro H; try exact untrue_none; try exact untrue_bytes; try exact untrue_list.
    + apply untrue_text with (c := false). constructor.
    + apply untrue_zero. constructor.
    + apply untrue_zero, number_iff. cbn [number_like] in *. apply negb_false_iff, Z.eqb_eq in H. now rewrite H.
    + apply untrue_zero, number_iff. cbn [number_like] in *. apply negb_false_iff, Z.eqb_eq in H. now rewrite H.
    + apply untrue_tuple. constructor.
    + destruct (is_tuple_class c) eqn:T; [destruct l; [|discriminate]; apply untrue_tuple, tuple_iff; cbn [items_of]; now rewrite T|].
      destruct (str_eqb c (s "MultiDict")) eqn:D; [apply str_eqb_eq in D; subst c; destruct l as [|[| | | | | | |[|]| | | |] [|]]; try discriminate; exact untrue_dict|].
      destruct (str_like (VObj c l)) as [[[|]|[|]]|] eqn:X; try discriminate.
      * apply untrue_text with (c := false). now apply text_iff.
      * apply untrue_text with (c := true). now apply text_iff.
      * destruct (number_like (VObj c l)) as [z|] eqn:N; [|discriminate]. apply negb_false_iff, Z.eqb_eq in H. subst z. now apply untrue_zero, number_iff.
  - intros [|w c H| |w H| |w H|]; try reflexivity.
    + apply text_iff in H. pose proof (text_only H) as (N & M & T & _ & D & _). destruct w as [x| | | | | | | | |k l| |]; try discriminate H.
      * cbn [str_like] in H. destruct c; [discriminate H|]. now injection H as ->.
      * cbn [truthy_val]. cbn [items_of] in T. destruct (is_tuple_class k); [discriminate T|]. destruct (str_eqb k (s "MultiDict")) eqn:Q; [apply str_eqb_eq in Q; destruct (D l); now rewrite Q|]. rewrite H. now destruct c.
    + apply number_iff in H. pose proof (number_only H) as (M & T & _ & D & _). assert (X : str_like w = None). { destruct (str_like w) eqn:Q; [|reflexivity]. apply text_only in Q. destruct Q as [Q _]. congruence. }
      destruct w as [| | | |[]|z|x| | |c l| |]; try discriminate H; try reflexivity; cbn [truthy_val]; try (rewrite H; reflexivity).
      cbn [items_of] in T. destruct (is_tuple_class c); [discriminate T|]. destruct (str_eqb c (s "MultiDict")) eqn:Q; [apply str_eqb_eq in Q; destruct (D l); now rewrite Q|]. now rewrite X, H.
    + apply tuple_iff in H. destruct w; cbn [items_of] in H; try discriminate H; cbn [truthy_val]; [injection H as ->; reflexivity|]. destruct (is_tuple_class _); [|discriminate H]. now injection H as ->.
Qed.
Print Assumptions C82_truth.

(** *** Order *)

Theorem C82_order : forall a b c, order a b = Some c <->
  (exists x y, number a x /\ number b y /\ c = Z.compare x y) \/ (exists x y, moment a x /\ moment b y /\ c = Z.compare x y).
Proof.
  intros a b c. unfold order. split.
  - destruct (number_like a) as [x|] eqn:A; [destruct (number_like b) as [y|] eqn:B|].
    + injection 1 as <-. left. exists x, y. split; [now apply number_iff|]. split; [now apply number_iff|reflexivity].
    + destruct (time_like a) as [x'|] eqn:A'; [|discriminate]. apply number_only in A. destruct A as [A _]. congruence.
    + destruct (time_like a) as [x|] eqn:A', (time_like b) as [y|] eqn:B'; try discriminate. injection 1 as <-. right. exists x, y. split; [now apply moment_iff|]. split; [now apply moment_iff|reflexivity].
  - intros [(x & y & A & B & ->)|(x & y & A & B & ->)].
    + apply number_iff in A, B. now rewrite A, B.
    + apply moment_iff in A, B. rewrite A, B. destruct (number_like a) eqn:Q; [apply number_only in Q; destruct Q as [Q _]; congruence|reflexivity].
Qed.
Print Assumptions C82_order.

(** *** Fractions *)

Lemma dec_value_is x : dec_value x = decimal x.
Proof.
  unfold dec_value, decimal. generalize 0%N. induction x as [|c x IH]; intro n; [reflexivity|]. cbn [dec_value_from fold_left]. apply IH.
Qed.
(** What number a text of digits, perhaps with up to three after a point, is:
    place value, without rounding. *)
Theorem C82_fraction : forall whole frac, HttpText.all is_digit whole -> HttpText.all is_digit frac -> List.length frac <= 3 ->
  thousandths whole = (1000 * Z.of_N (decimal whole))%Z /\
  (thousandths (whole ++ s "." ++ frac) * 10 ^ Z.of_nat (List.length frac) = 1000 * Z.of_N (decimal (whole ++ frac)))%Z.
Proof.
  intros whole frac W F L.
  assert (D : forall x, HttpText.all is_digit x -> ~ In 46%N x). { intros x A I. unfold HttpText.all in A. rewrite Forall_forall in A. specialize (A _ I). discriminate A. }
  split.
  - unfold thousandths. replace (split_c 46 whole) with [whole]. { rewrite dec_value_is. lia. }
    symmetry. apply P_Inputs.split_c_spec. split; [discriminate|]. split; [reflexivity|]. intros w [<-|[]]. now apply D.
  - unfold thousandths. replace (split_c 46 (whole ++ s "." ++ frac)) with [whole; frac].
    2:{ symmetry. apply P_Inputs.split_c_spec. split; [discriminate|]. split; [reflexivity|]. intros w [<-|[<-|[]]]; now apply D. }
    rewrite !dec_value_is, (SyntaxDates.decimal_app whole frac). destruct frac as [|a [|b [|c [|d frac]]]]; [| | | |cbn [List.length] in L; lia].
    + change (decimal (firstn 3 ([] ++ s "000"))) with 0%N. change (decimal []) with 0%N. change (10 ^ Z.of_nat (List.length (@nil N)))%Z with 1%Z. change (10 ^ N.of_nat (List.length (@nil N)))%N with 1%N. lia.
    + change (firstn 3 ([a] ++ s "000")) with [a; 48; 48]%N. unfold decimal at 2 4. cbn [fold_left]. change (10 ^ Z.of_nat (List.length [a]))%Z with 10%Z. change (10 ^ N.of_nat (List.length [a]))%N with 10%N. lia.
    + change (firstn 3 ([a; b] ++ s "000")) with [a; b; 48]%N. unfold decimal at 2 4. cbn [fold_left]. change (10 ^ Z.of_nat (List.length [a; b]))%Z with 100%Z. change (10 ^ N.of_nat (List.length [a; b]))%N with 100%N. lia.
    + change (firstn 3 ([a; b; c] ++ s "000")) with [a; b; c]. unfold decimal at 2 4. cbn [fold_left]. change (10 ^ Z.of_nat (List.length [a; b; c]))%Z with 1000%Z. change (10 ^ N.of_nat (List.length [a; b; c]))%N with 1000%N. lia.
Qed.
Print Assumptions C82_fraction.

Example C82_example :
  let gzip q := VObj (s "Parametrized") [VObj (s "ContentCoding") [VStr (s "GZip")]; VFloat q] in
  equal (VStr (s "gzip")) (gzip (s "0.5")) /\ equal (gzip (s "0.5")) (gzip (s "0.500")) /\ ~ equal (gzip (s "0.5")) (gzip (s "0.05")) /\
  ~ equal (VObj (s "Method") [VStr (s "get")]) (VStr (s "GET")) /\ ~ equal (VUnavailable VNone) (VUnavailable VNone) /\ equal (VBool true) (VFloat (s "1.0")) /\
  untrue (VFloat (s "0.000")) /\ ~ untrue (VUnavailable VNone) /\
  order (VFloat (s "0.25")) (VFloat (s "0.3")) = Some Lt /\ order (VStr (s "1")) (VInt 2) = None.
Proof.
  assert (N : forall a b, veq a b = false -> ~ equal a b). { intros a b H E. apply C82_equality in E. congruence. }
  cbv zeta. split; [apply C82_equality; vm_compute; reflexivity|]. split; [apply C82_equality; vm_compute; reflexivity|]. split; [apply N; vm_compute; reflexivity|].
  split; [apply N; vm_compute; reflexivity|]. split; [apply N; vm_compute; reflexivity|]. split; [apply C82_equality; vm_compute; reflexivity|].
  split; [apply C82_truth; vm_compute; reflexivity|]. split; [intro H; apply C82_truth in H; discriminate H|]. split; vm_compute; reflexivity.
Qed.
