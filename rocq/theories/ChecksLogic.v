(** How to reason about computations that complain: what they can report, and
    what happens when one follows another. *)
From Coq Require Import ZifyBool ZifyNat ZifyN String.
From Verif Require Import Base Earley Grammar Syntax Actions Text Structure Known Tables Header Values ChecksBase.
Open Scope nat_scope.
Open Scope list_scope.
Unset Strict Implicit.

(** ** What a computation reports *)

Section Emits.
Variable E : env.
Variable P : event -> Prop.
Definition emits {A} (m : M A) : Prop := Forall P (fst (m E)).

Lemma emits_ret {A} (v : A) : emits (ret v).
Proof. constructor. Qed.
Lemma emits_raise {A} e : emits (@raise A e).
Proof. constructor. Qed.
Lemma emits_ask {A} (f : env -> A) : emits (ask f).
Proof. constructor. Qed.
Lemma emits_bind {A B} (m : M A) (f : A -> M B) : emits m -> (forall v, snd (m E) = Ok v -> emits (f v)) -> emits (bind m f).
Proof.
  unfold emits, bind. intros H K. destruct (m E) as [es [v|e]]; [|exact H]. specialize (K v eq_refl). destruct (f v E). cbn [fst] in *. apply Forall_app. auto.
Qed.
Lemma emits_ifM {A} c (a b : M A) : emits c -> (snd (c E) = Ok true -> emits a) -> (snd (c E) = Ok false -> emits b) -> emits (ifM c a b).
Proof. intros H K L. apply emits_bind; [exact H|]. intros [|] Q; auto. Qed.
Lemma emits_when c (a : M unit) : emits c -> (snd (c E) = Ok true -> emits a) -> emits (when c a).
Proof. intros. apply emits_ifM; auto. intros. apply emits_ret. Qed.
Lemma emits_and a b : emits a -> (snd (a E) = Ok true -> emits b) -> emits (andM a b).
Proof. intros. apply emits_bind; auto. intros [|] Q; auto. apply emits_ret. Qed.
Lemma emits_or a b : emits a -> (snd (a E) = Ok false -> emits b) -> emits (orM a b).
Proof. intros. apply emits_bind; auto. intros [|] Q; auto. apply emits_ret. Qed.
Lemma emits_not a : emits a -> emits (notM a).
Proof. intros. apply emits_bind; auto. intros. apply emits_ret. Qed.
Lemma emits_pure b : emits (pure b).
Proof. constructor. Qed.
Lemma emits_result {A} (r : result A) : emits (result_of r).
Proof. destruct r; constructor. Qed.
Lemma emits_some {A} (r : option A) : emits (some_of r).
Proof. destruct r; constructor. Qed.
Lemma emits_any {A} (f : A -> M bool) l : (forall x, In x l -> emits (f x)) -> emits (anyM f l).
Proof. induction l as [|x l IH]; cbn [anyM]; intros; [apply emits_ret|]. apply emits_or; [apply H; now left|]. intros. apply IH. intros. apply H. now right. Qed.
Lemma emits_all {A} (f : A -> M bool) l : (forall x, In x l -> emits (f x)) -> emits (allM f l).
Proof. induction l as [|x l IH]; cbn [allM]; intros; [apply emits_ret|]. apply emits_and; [apply H; now left|]. intros. apply IH. intros. apply H. now right. Qed.
Lemma emits_each {A} (l : list A) f : (forall x, In x l -> emits (f x)) -> emits (for_each l f).
Proof. induction l as [|x l IH]; cbn [for_each]; intros; [apply emits_ret|]. apply emits_bind; [apply H; now left|]. intros. apply IH. intros. apply H. now right. Qed.
Lemma emits_map {A B} (f : A -> M B) l : (forall x, In x l -> emits (f x)) -> emits (mapM f l).
Proof.
  induction l as [|x l IH]; cbn [mapM]; intros; [apply emits_ret|]. apply emits_bind; [apply H; now left|]. intros. apply emits_bind; [apply IH; intros; apply H; now right|]. intros. apply emits_ret.
Qed.
Lemma emits_seq l : (forall m, In m l -> emits m) -> emits (seq l).
Proof. apply emits_each. Qed.
Lemma emits_complain w id ctx : P (Said w id ctx) -> emits (complain w id ctx).
Proof. intro. now constructor. Qed.
Lemma emits_silence j ids : P (Silenced (j_who j) ids) -> emits (silence j ids).
Proof. intro. now constructor. Qed.
End Emits.

Lemma emits_impl E (P Q : event -> Prop) {A} (m : M A) : (forall e, P e -> Q e) -> emits E P m -> emits E Q m.
Proof. intros H. apply Forall_impl. exact H. Qed.

(** ** Statements one after another *)

Lemma bind_ok {A B} (m : M A) (f : A -> M B) E es r : bind m f E = (es, Ok r) <->
  exists v es1 es2, m E = (es1, Ok v) /\ f v E = (es2, Ok r) /\ es = es1 ++ es2.
Proof.
  unfold bind. split.
  - destruct (m E) as [es1 [v|e]]; [|intro H; discriminate H]. destruct (f v E) as [es2 r2] eqn:F. intro H. injection H as <- ->. eauto 6.
  - intros [v [es1 [es2 [-> [-> ->]]]]]. reflexivity.
Qed.

(** If nothing raises, what is reported is what every statement reports. *)
Lemma seq_ok l E es : seq l E = (es, Ok tt) -> es = flat_map (fun m => fst (m E)) l /\ forall m, In m l -> snd (m E) = Ok tt.
Proof.
  unfold seq. revert es. induction l as [|m l IH]; intros es H.
  - cbn in H. unfold ret in H. injection H as <-. split; [reflexivity|intros m []].
  - cbn [for_each] in H. apply bind_ok in H. destruct H as [[] [es1 [es2 [H1 [H2 ->]]]]]. destruct (IH _ H2) as [-> K]. cbn [flat_map]. rewrite H1.
    split; [reflexivity|]. intros m' [<-|I]; [now rewrite H1|auto].
Qed.
Lemma seq_in l E w id ctx : snd (seq l E) = Ok tt ->
  (In (Said w id ctx) (fst (seq l E)) <-> exists m, In m l /\ In (Said w id ctx) (fst (m E))).
Proof.
  intro H. destruct (seq l E) as [es r] eqn:Q. cbn [fst snd] in *. subst r. apply seq_ok in Q. destruct Q as [-> _]. apply in_flat_map.
Qed.

(** ** Tactics *)

Ltac head_of t := match t with ?f _ => head_of f | _ => t end.
(** One step of showing that a computation only reports what it may. *)
Ltac emit_step leaf :=
  lazymatch goal with
  | |- emits _ _ (ret _) => apply emits_ret
  | |- emits _ _ (raise _) => apply emits_raise
  | |- emits _ _ (ask _) => apply emits_ask
  | |- emits _ _ (pure _) => apply emits_pure
  | |- emits _ _ (result_of _) => apply emits_result
  | |- emits _ _ (some_of _) => apply emits_some
  | |- emits _ _ (bind _ _) => apply emits_bind; [|intros ? ?]
  | |- emits _ _ (ifM _ _ _) => apply emits_ifM; [|intros ?|intros ?]
  | |- emits _ _ (when _ _) => apply emits_when; [|intros ?]
  | |- emits _ _ (andM _ _) => apply emits_and; [|intros ?]
  | |- emits _ _ (orM _ _) => apply emits_or; [|intros ?]
  | |- emits _ _ (notM _) => apply emits_not
  | |- emits _ _ (anyM _ _) => apply emits_any; intros ? ?
  | |- emits _ _ (allM _ _) => apply emits_all; intros ? ?
  | |- emits _ _ (for_each _ _) => apply emits_each; intros ? ?
  | |- emits _ _ (mapM _ _) => apply emits_map; intros ? ?
  | |- emits _ _ (seq _) => apply emits_seq; intros ? ?
  | |- emits _ _ (say _ _ _) => apply emits_complain; leaf
  | |- emits _ _ (complain _ _ _) => apply emits_complain; leaf
  | |- emits _ _ (silence _ _) => apply emits_silence; leaf
  | |- emits _ _ (match ?x with _ => _ end) => destruct x eqn:?
  | |- emits _ _ (let _ := _ in _) => cbv zeta
  | |- emits _ _ ?m => let h := head_of m in cbv beta zeta delta [h]
  end.
