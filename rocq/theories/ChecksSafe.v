(** Which exceptions the checks of a message can raise. *)
From Coq Require Import ZifyBool ZifyNat ZifyN String.
From Verif Require Import Base Earley Grammar Syntax Actions Reading Nested NestedTypes Types P_Types Text Structure Known Tables Header HeaderProofs P_Header P_Views Values
  ViewFacts ChecksBase ChecksLogic ChecksViews ChecksFacts ChecksMessage ChecksRequest ChecksResponse.
Open Scope nat_scope.
Open Scope list_scope.
Unset Strict Implicit.
Local Open Scope string_scope.
Local Open Scope list_scope.

(** ** Computations that return as expected or raise what is allowed *)

Section Safe.
Variable E : env.
Variable allowed : exn -> Prop.
Definition safe {A} (m : M A) (P : A -> Prop) : Prop := match snd (m E) with Ok v => P v | Raise e => allowed e end.
Definition calm {A} (m : M A) : Prop := safe m (fun _ => True).

Lemma safe_calm {A} (m : M A) P : safe m P -> calm m.
Proof. unfold calm, safe. destruct (snd (m E)); auto. Qed.
Lemma safe_impl {A} (m : M A) (P Q : A -> Prop) : (forall v, P v -> Q v) -> safe m P -> safe m Q.
Proof. unfold safe. destruct (snd (m E)); auto. Qed.
Lemma safe_self {A} (m : M A) P : safe m P -> safe m (fun v => P v /\ snd (m E) = Ok v).
Proof. unfold safe. destruct (snd (m E)); auto. Qed.
Lemma safe_ret {A} (v : A) : safe (ret v) (fun x => x = v).
Proof. reflexivity. Qed.
Lemma calm_ret {A} (v : A) : calm (ret v).
Proof. exact I. Qed.
Lemma safe_bind {A B} (m : M A) (f : A -> M B) P Q : safe m P -> (forall v, P v -> safe (f v) Q) -> safe (bind m f) Q.
Proof.
  unfold safe, bind. destruct (m E) as [es [v|e]]; cbn [snd]; intros H K; [|exact H]. specialize (K v H). destruct (f v E). exact K.
Qed.
Lemma safe_when c a P : safe c P -> (P true -> calm a) -> calm (when c a).
Proof. intros H K. eapply safe_bind; [exact H|]. intros [|] X; [exact (K X)|exact I]. Qed.
Lemma safe_if {A} c (a b : M A) P Q : safe c P -> (P true -> safe a Q) -> (P false -> safe b Q) -> safe (ifM c a b) Q.
Proof. intros H K L. eapply safe_bind; [exact H|]. intros [|] X; [exact (K X)|exact (L X)]. Qed.
Lemma safe_and a b P Q : safe a P -> (P true -> safe b Q) -> safe (andM a b) (fun x => if x then P true /\ Q true else True).
Proof. intros H K. eapply safe_bind; [exact H|]. intros [|] X; [|exact I]. eapply safe_impl; [|exact (K X)]. intros [|]; auto. Qed.
Lemma safe_or a b P Q : safe a P -> (P false -> safe b Q) -> safe (orM a b) (fun x => if x then True else P false /\ Q false).
Proof. intros H K. eapply safe_bind; [exact H|]. intros [|] X; [exact I|]. eapply safe_impl; [|exact (K X)]. intros [|]; auto. Qed.
Lemma safe_not a P : safe a P -> safe (notM a) (fun x => P (negb x)).
Proof. intros H. eapply safe_bind; [exact H|]. intros x X. unfold safe. cbn. now rewrite negb_involutive. Qed.
Lemma safe_pure b : safe (pure b) (fun x => x = b).
Proof. reflexivity. Qed.
Lemma safe_ask {A} (f : env -> A) : safe (ask f) (fun x => x = f E).
Proof. reflexivity. Qed.
Lemma calm_say j id ctx : calm (say j id ctx).
Proof. exact I. Qed.
Lemma calm_complain w id ctx : calm (complain w id ctx).
Proof. exact I. Qed.
Lemma calm_silence j ids : calm (silence j ids).
Proof. exact I. Qed.
Lemma calm_any {A} (f : A -> M bool) l : (forall x, In x l -> calm (f x)) -> calm (anyM f l).
Proof.
  induction l as [|x l IH]; cbn [anyM]; intros H; [exact I|]. eapply safe_calm, safe_or; [apply H; now left|]. intros _. apply IH. intros. apply H. now right.
Qed.
Lemma calm_all {A} (f : A -> M bool) l : (forall x, In x l -> calm (f x)) -> calm (allM f l).
Proof.
  induction l as [|x l IH]; cbn [allM]; intros H; [exact I|]. eapply safe_calm, safe_and; [apply H; now left|]. intros _. apply IH. intros. apply H. now right.
Qed.
Lemma calm_each {A} (l : list A) f : (forall x, In x l -> calm (f x)) -> calm (for_each l f).
Proof.
  induction l as [|x l IH]; cbn [for_each]; intros H; [exact I|]. eapply safe_bind; [apply H; now left|]. intros _ _. apply IH. intros. apply H. now right.
Qed.
Lemma safe_map {A B} (f : A -> M B) l (P : B -> Prop) : (forall x, In x l -> safe (f x) P) -> safe (mapM f l) (Forall P).
Proof.
  induction l as [|x l IH]; cbn [mapM]; intros H; [constructor|]. eapply safe_bind; [apply H; now left|]. intros y Y.
  eapply safe_bind; [apply IH; intros; apply H; now right|]. intros ys Ys. constructor; auto.
Qed.
Lemma calm_seq l : (forall m, In m l -> calm m) -> calm (seq l).
Proof. apply calm_each. Qed.
Lemma safe_some {A} (r : option A) (P : A -> Prop) x : r = Some x -> P x -> safe (some_of r) P.
Proof. intros -> H. exact H. Qed.

(** ** Headers *)

Hypothesis http : parses_http (e_read E).
(** The messages considered. *)
Variable known : msg -> Prop.
Hypothesis link_raises : forall m, known m -> crashed (v_value (got_view (e_read E) (m_entries m) (s "Link"))) -> allowed FromLink.

Section Subject.
Variable j : subject.
Hypothesis Kj : known (j_msg j).
Definition gv (key : string) : val := v_value (got_view (e_read E) (m_entries (j_msg j)) (s key)).

Lemma safe_view name : safe (view j name) (fun v => v = got_view (e_read E) (m_entries (j_msg j)) name /\ has_bad (v_value v) = false).
Proof.
  destruct (view_run E j name) as [v [V R]]. unfold safe. rewrite R. pose proof (view_unique V (got_is (e_read E) (m_entries (j_msg j)) name)) as ->.
  destruct (has_bad _) eqn:B; cbn [snd]; [|auto]. apply has_bad_crashed in B. apply (link_raises Kj).
  destruct (str_eqb (lower name) (lower (s "Link"))) eqn:L.
  2: { exfalso. refine (C65_views http V _ B). intro N. apply same_name_lower in N. rewrite N in L. now rewrite (proj2 (str_eqb_eq _ _) eq_refl) in L. }
  apply str_eqb_eq, same_name_lower in L. rename L into N.
  assert (Q : got_view (e_read E) (m_entries (j_msg j)) name = got_view (e_read E) (m_entries (j_msg j)) (s "Link")).
  { eapply view_unique; [apply got_is|]. apply (proj2 (@C33_case _ _ _ _ _ N)), got_is. }
  rewrite <- Q. exact B.
Qed.
Lemma safe_value key : safe (value j key) (fun v => v = gv key).
Proof. eapply safe_bind; [apply safe_view|]. intros v [-> _]. reflexivity. Qed.
Lemma safe_okay key : safe (okayM j key) (fun b => b = okay_value (gv key)).
Proof. eapply safe_bind; [apply safe_view|]. intros v [-> _]. reflexivity. Qed.
Lemma safe_present key : safe (present j key) (fun b => b = is_present (got_view (e_read E) (m_entries (j_msg j)) (s key))).
Proof. eapply safe_bind; [apply safe_view|]. intros v [-> _]. reflexivity. Qed.
Lemma calm_absent key : calm (absent j key).
Proof. eapply safe_calm, safe_not, safe_present. Qed.
Lemma calm_truth key : calm (truth j key).
Proof. eapply safe_bind; [apply safe_value|]. intros. exact I. Qed.
Lemma safe_equal key other : safe (is_equal j key other) (fun b => b = okay_value (gv key) && okay_value other && veq (gv key) other).
Proof. eapply safe_bind; [apply safe_view|]. intros v [-> _]. reflexivity. Qed.
Lemma safe_unequal key other : safe (is_unequal j key other) (fun b => b = okay_value (gv key) && okay_value other && negb (veq (gv key) other)).
Proof. eapply safe_bind; [apply safe_view|]. intros v [-> _]. reflexivity. Qed.

Lemma fit key sh : shape_of (s key) = Some sh -> fits (view_shape key sh) (gv key).
Proof.
  intro S. unfold shape_of in S. destruct (find _ value_shapes) as [[key' sh']|] eqn:F; [|discriminate S]. apply find_some in F. destruct F as [F1 F2]. cbn [fst snd] in *. injection S as ->.
  apply str_eqb_eq in F2. pose proof (view_fits http F1 (got_is (e_read E) (m_entries (j_msg j)) (s key'))) as K. unfold gv. rewrite <- F2. unfold view_shape in *. rewrite F2 in *. exact K.
Qed.
(** The shape of the value of a header that occurs once. *)
Lemma fit_one key sh : shape_of (s key) = Some sh -> class_of (s key) = Some SingleView -> okay_value (gv key) = true -> fits sh (gv key).
Proof.
  intros S C O. pose proof (fit S) as F. unfold view_shape in F. rewrite C in F. destruct F as [F|[[u F]|[F|[]]]]; [exact F|rewrite F in O; discriminate O|cbn [fits] in F; rewrite F in O; discriminate O].
Qed.
(** The elements of a header that is a list. *)
Definition element_of (sh : shape) : option shape := match sh with OneOf [Many (OneOf [_; elt])] => Some elt | _ => None end.
Lemma safe_items key sh elt : shape_of (s key) = Some sh -> view_shape key sh = OneOf [Many (OneOf [Unread; elt])] -> is_single (s key) = false ->
  safe (items j key) (fun l => Forall (fun v => fits elt v /\ okay_value v = true) l /\ exists l0, gv key = VList l0 /\ l = filter okay_value l0).
Proof.
  intros S V N. pose proof (fit S) as F. rewrite V in F. destruct F as [[l [F G]]|[]]. eapply safe_bind; [apply safe_value|]. intros v ->. rewrite F. unfold safe. cbn. rewrite N.
  split; [|eauto]. apply Forall_forall. intros u I. apply filter_In in I. destruct I as [I O]. rewrite Forall_forall in G. specialize (G u I). destruct G as [[y ->]|[G|[]]]; [discriminate O|auto].
Qed.
(** One that may also be a star. *)
Lemma safe_star key sh elt : shape_of (s key) = Some sh -> view_shape key sh = OneOf [Many (OneOf [Unread; elt]); Word "*"] -> is_single (s key) = false ->
  safe (items j key) (fun l => gv key = VStr (s "*") \/ Forall (fun v => fits elt v /\ okay_value v = true) l).
Proof.
  intros S V N. pose proof (fit S) as F. rewrite V in F. eapply safe_bind; [apply safe_value|]. intros v ->. destruct F as [[l [F G]]|[F|[]]].
  - rewrite F. unfold safe. cbn. rewrite N. right. apply Forall_forall. intros u I. apply filter_In in I. destruct I as [I O]. rewrite Forall_forall in G. specialize (G u I).
    destruct G as [[y ->]|[G|[]]]; [discriminate O|auto].
  - cbn [fits] in F. rewrite F. unfold safe. cbn. now left.
Qed.
Lemma calm_item key sh elt other : shape_of (s key) = Some sh -> view_shape key sh = OneOf [Many (OneOf [Unread; elt])] -> is_single (s key) = false -> calm (has_item j key other).
Proof. intros. eapply safe_bind; [eapply safe_items; eassumption|]. intros. exact I. Qed.
Lemma calm_parse_text x text fail extra : calm (parse_text j x text fail extra).
Proof.
  eapply safe_bind; [apply safe_ask|]. intros r _. destruct r as [[v cs]|].
  - eapply safe_bind; [apply calm_each; intros; exact I|]. intros. exact I.
  - eapply safe_bind; [apply calm_say|]. intros. exact I.
Qed.
End Subject.
End Safe.

(** Fields. *)
Section Fields.
Variable E : env.
Variable allowed : exn -> Prop.
Notation safe := (safe E allowed).
Lemma f_item x y : safe (field "item" (VObj (s "Parametrized") [x; y])) (fun v => v = x).
Proof. reflexivity. Qed.
Lemma f_param x y : safe (field "param" (VObj (s "Parametrized") [x; y])) (fun v => v = y).
Proof. reflexivity. Qed.
Lemma f_name x y : safe (field "item" (VObj (s "Versioned") [x; y])) (fun v => v = x).
Proof. reflexivity. Qed.
Lemma f_weak x y : safe (field "weak" (VObj (s "EntityTag") [x; y])) (fun v => v = x).
Proof. reflexivity. Qed.
Lemma f_opaque x y : safe (field "opaque_tag" (VObj (s "EntityTag") [x; y])) (fun v => v = y).
Proof. reflexivity. Qed.
Lemma f_unit x y : safe (field "unit" (VObj (s "RangeSpecifier") [x; y])) (fun v => v = x).
Proof. reflexivity. Qed.
Lemma f_ranges x y : safe (field "ranges" (VObj (s "RangeSpecifier") [x; y])) (fun v => v = y).
Proof. reflexivity. Qed.
Lemma f_code x y z t : safe (field "code" (VObj (s "WarningValue") [x; y; z; t])) (fun v => v = x).
Proof. reflexivity. Qed.
Lemma f_date x y z t : safe (field "date" (VObj (s "WarningValue") [x; y; z; t])) (fun v => v = t).
Proof. reflexivity. Qed.
End Fields.

(** Applying the rules.  [go]: the goal is [calm m]; [cond]: the goal is [safe m
    ?P], and [P] is to be found. *)
Ltac known_shape := first [reflexivity|vm_compute; reflexivity].
Ltac leaf :=
  lazymatch goal with
  | |- safe _ _ (ret _) _ => apply safe_ret
  | |- safe _ _ (pure _) _ => apply safe_pure
  | |- safe _ _ (ask _) _ => apply safe_ask
  | |- safe _ _ (view _ _) _ => eapply safe_view; eassumption
  | |- safe _ _ (value _ _) _ => eapply safe_value; eassumption
  | |- safe _ _ (okayM _ _) _ => eapply safe_okay; eassumption
  | |- safe _ _ (present _ _) _ => eapply safe_present; eassumption
  | |- safe _ _ (absent _ _) _ => eapply calm_absent; eassumption
  | |- safe _ _ (truth _ _) _ => eapply calm_truth; eassumption
  | |- safe _ _ (is_equal _ _ _) _ => eapply safe_equal; eassumption
  | |- safe _ _ (is_unequal _ _ _) _ => eapply safe_unequal; eassumption
  | |- safe _ _ (items _ _) _ => eapply safe_items; [eassumption|eassumption|eassumption|known_shape|known_shape|known_shape]
  | |- safe _ _ (has_item _ _ _) _ => eapply calm_item; [eassumption|eassumption|eassumption|known_shape|known_shape|known_shape]
  | |- safe _ _ (parse_text _ _ _ _ _) _ => apply calm_parse_text
  | |- safe _ _ (say _ _ _) _ => apply calm_say
  | |- safe _ _ (complain _ _ _) _ => apply calm_complain
  | |- safe _ _ (silence _ _) _ => apply calm_silence
  | |- safe _ _ (field _ _) _ => first [apply f_item|apply f_param|apply f_name|apply f_weak|apply f_opaque|apply f_unit|apply f_ranges|apply f_code|apply f_date]
  end.
Ltac to_calm := lazymatch goal with |- safe ?E ?al ?m _ => first [refine (_ : calm E al m)|idtac] end.
Ltac cond :=
  lazymatch goal with
  | |- safe _ _ (andM _ _) _ => eapply safe_and; [cond|let H := fresh "T" in intro H; cond]
  | |- safe _ _ (orM _ _) _ => eapply safe_or; [cond|let H := fresh "T" in intro H; cond]
  | |- safe _ _ (notM _) _ => eapply safe_not; cond
  | |- safe _ _ (if ?b then _ else _) _ => let H := fresh "B" in destruct b eqn:H; cond
  | |- safe ?E ?al (bind _ _) _ => to_calm; go
  | |- safe ?E ?al (when _ _) _ => to_calm; go
  | |- safe ?E ?al (ifM _ _ _) _ => to_calm; go
  | |- safe ?E ?al (for_each _ _) _ => to_calm; go
  | |- safe ?E ?al (anyM _ _) _ => to_calm; go
  | |- safe ?E ?al (allM _ _) _ => to_calm; go
  | |- _ => tryif leaf then idtac else idtac
  end
with go :=
  try lazymatch goal with |- safe ?E ?al ?m (fun _ => True) => change (calm E al m) end;
  lazymatch goal with
  | |- calm _ _ (bind _ _) => eapply safe_bind; [cond|let v := fresh "v" in let H := fresh "V" in intros v H; go]
  | |- safe _ _ (bind _ _) _ => eapply safe_bind; [cond|let v := fresh "v" in let H := fresh "V" in intros v H; go]
  | |- calm _ _ (when _ _) => eapply safe_when; [cond|let H := fresh "T" in intro H; go]
  | |- safe _ _ (when _ _) _ => eapply safe_when; [cond|let H := fresh "T" in intro H; go]
  | |- calm _ _ (ifM _ _ _) => eapply safe_if; [cond|let H := fresh "T" in intro H; go|let H := fresh "T" in intro H; go]
  | |- safe _ _ (ifM _ _ _) _ => eapply safe_if; [cond|let H := fresh "T" in intro H; go|let H := fresh "T" in intro H; go]
  | |- calm _ _ (for_each _ _) => apply calm_each; let x := fresh "x" in let H := fresh "Ix" in intros x H; go
  | |- safe _ _ (for_each _ _) _ => apply calm_each; let x := fresh "x" in let H := fresh "Ix" in intros x H; go
  | |- calm _ _ (anyM _ _) => apply calm_any; let x := fresh "x" in let H := fresh "Ix" in intros x H; go
  | |- safe _ _ (anyM _ _) _ => apply calm_any; let x := fresh "x" in let H := fresh "Ix" in intros x H; go
  | |- calm _ _ (allM _ _) => apply calm_all; let x := fresh "x" in let H := fresh "Ix" in intros x H; go
  | |- safe _ _ (allM _ _) _ => apply calm_all; let x := fresh "x" in let H := fresh "Ix" in intros x H; go
  | |- calm _ _ (if ?b then _ else _) => let H := fresh "B" in destruct b eqn:H; go
  | |- calm _ _ (match ?b with _ => _ end) => let H := fresh "B" in destruct b eqn:H; go
  | |- calm _ _ (ret _) => apply calm_ret
  | |- calm _ _ _ => first [eapply safe_calm; progress cond|idtac]
  | |- _ => cond
  end.

(** ** Dictionaries *)

Section Dictionaries.
Context {V : Type}.
Variable keq : val -> val -> bool.
Definition from_pairs (d : list (val * V)) (g : val * list V) : Prop :=
  (exists v rest, snd g = v :: rest /\ In (fst g, v) d) /\ forall v, In v (snd g) -> exists k, In (k, v) d.
Lemma from_more d kv g : from_pairs d g -> from_pairs (d ++ [kv]) g.
Proof.
  intros [[v [rest [E I]]] H]. split; [exists v, rest; split; [exact E|apply in_or_app; now left]|]. intros u Iu. destruct (H u Iu) as [k Ik]. exists k. apply in_or_app. now left.
Qed.
Lemma add_from d r k v : Forall (from_pairs d) r -> Forall (from_pairs (d ++ [(k, v)])) (add_to keq r k v).
Proof.
  induction 1 as [|g r H F IH]; cbn [add_to].
  - constructor; [|constructor]. split; [exists v, []; split; [reflexivity|apply in_or_app; right; now left]|]. intros u [<-|[]]. exists k. apply in_or_app. right. now left.
  - destruct g as [k' vs]. destruct (keq k' k).
    + constructor; [|eapply Forall_impl; [|exact F]; intros; now apply from_more]. apply (from_more (k, v)) in H. destruct H as [[u [rest [E I]]] H]. cbn [fst snd] in *. split.
      * exists u, (rest ++ [v]). cbn [fst snd]. split; [now rewrite E|exact I].
      * cbn [fst snd]. intros w Iw. apply in_app_or in Iw. destruct Iw as [Iw|[<-|[]]]; [auto|]. exists k. apply in_or_app. right. now left.
    + constructor; [now apply from_more|exact IH].
Qed.
Lemma dictionary_from d : Forall (from_pairs d) (dictionary keq d).
Proof.
  unfold dictionary. assert (G : forall l p r, Forall (from_pairs p) r -> Forall (from_pairs (p ++ l)) (fold_left (fun r kv => add_to keq r (fst kv) (snd kv)) l r)).
  { induction l as [|[k v] l IH]; intros p r F; cbn [fold_left]; [now rewrite app_nil_r|]. replace (p ++ (k, v) :: l) with ((p ++ [(k, v)]) ++ l) by now rewrite <- app_assoc. apply IH. now apply add_from. }
  apply (G d [] []). constructor.
Qed.
Lemma look_in (r : list (val * list V)) k vs : look keq r k = Some vs -> exists k', In (k', vs) r /\ keq k' k = true.
Proof.
  induction r as [|[k' vs'] r IH]; cbn [look]; [discriminate|]. destruct (keq k' k) eqn:Q; intro H.
  - injection H as <-. exists k'. split; [now left|exact Q].
  - destruct (IH H) as [k2 [I Q2]]. exists k2. split; [now right|exact Q2].
Qed.
Lemma getitem_in (d : list (val * V)) k v : getitem keq d k = Some v -> exists k', In (k', v) d /\ keq k' k = true.
Proof.
  unfold getitem. destruct (look keq (dictionary keq d) k) as [[|u rest]|] eqn:L; try discriminate. intro H. injection H as ->.
  apply look_in in L. destruct L as [k' [I Q]]. pose proof (dictionary_from d) as F. rewrite Forall_forall in F. destruct (F _ I) as [[v' [rest' [E J]]] _]. cbn [fst snd] in *. injection E as -> _. eauto.
Qed.
Lemma contains_getitem (d : list (val * V)) k : contains keq d k = true -> exists v, getitem keq d k = Some v.
Proof.
  unfold contains, getitem. destruct (look keq (dictionary keq d) k) as [vs|] eqn:L; [|discriminate]. intros _. apply look_in in L. destruct L as [k' [I Q]].
  pose proof (dictionary_from d) as F. rewrite Forall_forall in F. destruct (F _ I) as [[v [rest [E _]]] _]. cbn [snd] in E. rewrite E. eauto.
Qed.
Lemma get_some (d : list (val * V)) k default : exists x, Structure.get keq d k default = Some x /\ ((x = default /\ contains keq d k = false) \/ exists k', In (k', x) d /\ keq k' k = true).
Proof.
  unfold Structure.get. destruct (contains keq d k) eqn:C; [|exists default; auto]. destruct (contains_getitem C) as [v G]. rewrite G. exists v. split; [reflexivity|]. right. now apply getitem_in.
Qed.
Lemma getall_in (d : list (val * V)) k v : In v (getall keq d k) -> exists k', In (k', v) d.
Proof.
  unfold getall. destruct (look keq (dictionary keq d) k) as [vs|] eqn:L; [|intros []]. apply look_in in L. destruct L as [k' [I Q]].
  pose proof (dictionary_from d) as F. rewrite Forall_forall in F. destruct (F _ I) as [_ H]. cbn [snd] in H. auto.
Qed.
Lemma index_some (d : list (val * V)) k k' v : In (k', v) d -> keq k' k = true -> exists n, index keq d k = Some n.
Proof.
  induction d as [|[k2 v2] d IH]; intros I Q; [destruct I|]. cbn [index]. destruct (keq k2 k) eqn:Q2; [eauto|]. destruct I as [I|I]; [injection I as -> ->; congruence|].
  destruct (IH I Q) as [n ->]. cbn. eauto.
Qed.
End Dictionaries.
Lemma params_pairs l (P : val -> val -> Prop) : Forall (fun u => exists k v, u = VTuple [k; v] /\ P k v) l ->
  exists d, all_pairs l = Some d /\ Forall (fun kv => P (fst kv) (snd kv)) d.
Proof.
  induction 1 as [|u l [k [v [-> H]]] F [d [E G]]]; [exists []; split; [reflexivity|constructor]|]. exists ((k, v) :: d). cbn [all_pairs unpack2]. rewrite E. split; [reflexivity|now constructor].
Qed.
Lemma dict_pairs k v p : fits (params k v) p -> exists d, pairs_of p = Some d /\ Forall (fun kv => fits k (fst kv) /\ fits v (snd kv)) d.
Proof.
  intro F. apply fits_make1 in F. destruct F as [u [-> [l [-> F]]]]. apply (@params_pairs l (fun x y => fits k x /\ fits v y)).
  eapply Forall_impl; [|exact F]. intros u U. apply fits_tuple2 in U. destruct U as [x [y [-> [A B]]]]. exists x, y. auto.
Qed.

