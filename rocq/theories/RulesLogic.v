(** Reasoning about exactly which notices a computation reports. *)
From Coq Require Import ZifyBool ZifyNat ZifyN String.
From Verif Require Import Base Earley Grammar Syntax Actions Nested P_Types Text Structure Known Tables Header HeaderProofs P_Header P_Views Values Notices
  ChecksBase ChecksLogic ChecksViews ChecksFacts ChecksSays ChecksMessage ChecksRequest ChecksResponse.
Open Scope nat_scope.
Open Scope list_scope.
Unset Strict Implicit.
Local Open Scope string_scope.
Local Open Scope list_scope.

(** What is not at issue here: silencing, and the notices that are reported while
    a header is read. *)
Definition aside (e : event) : Prop :=
  match e with
  | Silenced _ _ => True
  | Said _ id _ => exists keys, In (id, keys) header_notices
  end.

Definition nothing (e : event) : Prop := False.

Section Does.
Variable E : env.
(** Notices that may be reported on the side. *)
Variable W : event -> Prop.

(** [does m D R]: [m] reports nothing but what is in [D] (and what is aside or
    on the side).  If it finishes, it reports everything in [D], and its result
    is in [R]. *)
Definition does {A} (m : M A) (D : event -> Prop) (R : A -> Prop) : Prop :=
  (forall e, In e (fst (m E)) -> aside e \/ W e \/ D e) /\
  (forall v, snd (m E) = Ok v -> R v /\ forall e, D e -> In e (fst (m E))).
Definition reports (m : M unit) (D : event -> Prop) : Prop := does m D (fun _ => True).
Definition returns {A} (m : M A) (R : A -> Prop) : Prop := does m nothing R.
Definition tests (c : M bool) (P : Prop) : Prop := does c nothing (fun b => b = true <-> P).

Lemma does_conv {A} (m : M A) (D D' : event -> Prop) (R R' : A -> Prop) : does m D R -> (forall e, D e <-> D' e) -> (forall v, R v -> R' v) -> does m D' R'.
Proof.
  intros [S C] H K. split.
  - intros e I. destruct (S e I) as [Q|[Q|Q]]; [tauto|tauto|]. right. right. now apply H.
  - intros v O. destruct (C v O) as [Q T]. split; [auto|]. intros e X. apply T. now apply H.
Qed.
Lemma does_to {A} (m : M A) (D D' : event -> Prop) (R : A -> Prop) : does m D R -> (forall e, D e <-> D' e) -> does m D' R.
Proof. intros H K. eapply does_conv; eauto. Qed.
Lemma does_weak {A} (m : M A) (D : event -> Prop) (R R' : A -> Prop) : does m D R -> (forall v, R v -> R' v) -> does m D R'.
Proof. intros H K. eapply does_conv; [exact H|tauto|exact K]. Qed.
Lemma does_side {A} (m : M A) (D : event -> Prop) (R : A -> Prop) : does m D R -> (forall e, D e -> W e) -> does m nothing R.
Proof.
  intros [S C] H. split.
  - intros e I. destruct (S e I) as [Q|[Q|Q]]; auto.
  - intros v O. split; [exact (proj1 (C v O))|intros e []].
Qed.

Lemma does_ret {A} (v : A) (R : A -> Prop) : R v -> does (ret v) nothing R.
Proof. intro H. split; [intros e []|]. cbn. intros u Q. injection Q as <-. split; [exact H|intros e []]. Qed.
Lemma does_raise {A} x D (R : A -> Prop) : does (raise x) D R.
Proof. split; [intros e []|]. cbn. intros u Q. discriminate Q. Qed.
Lemma does_ask {A} (f : env -> A) : returns (ask f) (fun v => v = f E).
Proof. split; [intros e []|]. cbn. intros u Q. injection Q as <-. split; [reflexivity|intros e []]. Qed.
Lemma does_some {A} (o : option A) : returns (some_of o) (fun v => o = Some v).
Proof. destruct o as [v|]; [apply does_ret; reflexivity|apply does_raise]. Qed.
Lemma does_result {A} (o : result A) : returns (result_of o) (fun v => o = Got v).
Proof. destruct o as [v|]; [apply does_ret; reflexivity|apply does_raise]. Qed.
Lemma does_complain w id ctx : reports (complain w id ctx) (fun e => e = Said w id ctx).
Proof. split; cbn; [intros e [<-|[]]; tauto|]. intros v _. split; [exact I|]. intros e ->. now left. Qed.
Lemma does_say j id ctx : reports (say j id ctx) (fun e => e = Said (j_who j) id ctx).
Proof. apply does_complain. Qed.
Lemma does_silence j ids : reports (silence j ids) nothing.
Proof. split; cbn; [intros e [<-|[]]; now left|]. intros v _. split; [exact I|intros e []]. Qed.

Lemma does_bind {A B} (m : M A) (f : A -> M B) D (R : A -> Prop) D' (R' : B -> Prop) : does m D R ->
  (forall v v', R v -> R v' -> v = v') -> (forall v, R v -> does (f v) (D' v) R') ->
  does (bind m f) (fun e => D e \/ exists v, R v /\ D' v e) R'.
Proof.
  intros [S C] U F. unfold does, bind. destruct (m E) as [es [v|x]] eqn:M; cbn [fst snd] in *.
  - destruct (C v eq_refl) as [Rv T]. destruct (F v Rv) as [S' C']. destruct (f v E) as [es' r]. cbn [fst snd] in *. split.
    + intros e I. apply in_app_or in I. destruct I as [I|I]; [destruct (S e I) as [ ? |[ ? | ?]]; tauto|]. destruct (S' e I) as [ ? |[ ? | ?]]; [tauto|tauto|]. right. right. right. eauto.
    + intros u O. destruct (C' u O) as [Ru T']. split; [exact Ru|]. intros e [X|[v' [Rv' X]]]; apply in_or_app; [left; auto|right]. apply T'. now rewrite (U v v' Rv Rv').
  - split; [|intros u O; discriminate O]. intros e I. destruct (S e I) as [ ? |[ ? | ?]]; tauto.
Qed.
(** The same, when nothing but the result matters. *)
Lemma returns_bind {A B} (m : M A) (f : A -> M B) (R : A -> Prop) (R' : B -> Prop) : returns m R ->
  (forall v, R v -> returns (f v) R') -> returns (bind m f) R'.
Proof.
  intros [S C] F. unfold returns, does, bind. destruct (m E) as [es [v|x]] eqn:M; cbn [fst snd] in *.
  - destruct (C v eq_refl) as [Rv T]. destruct (F v Rv) as [S' C']. destruct (f v E) as [es' r]. cbn [fst snd] in *. split.
    + intros e I. apply in_app_or in I. destruct I as [I|I]; [exact (S e I)|exact (S' e I)].
    + intros u O. destruct (C' u O) as [Ru T']. split; [exact Ru|]. intros e [].
  - split; [exact S|intros u O; discriminate O].
Qed.
(** After something that returns. *)
Lemma does_get {A B} (m : M A) (f : A -> M B) (R : A -> Prop) D' (R' : B -> Prop) : returns m R ->
  (forall v v', R v -> R v' -> v = v') -> (forall v, R v -> does (f v) (D' v) R') ->
  does (bind m f) (fun e => exists v, R v /\ D' v e) R'.
Proof. intros H U F. eapply does_to; [exact (does_bind H U F)|]. intro e. unfold nothing. tauto. Qed.
Lemma does_let {A B} (m : M A) (f : A -> M B) v D (R : B -> Prop) : returns m (fun u => u = v) -> does (f v) D R -> does (bind m f) D R.
Proof.
  intros H F. eapply does_to; [eapply does_get with (D' := fun _ => D); [exact H|congruence|]|].
  - intros u ->. exact F.
  - intro e. split; [intros [u [_ K]]; exact K|eauto].
Qed.
(** The next computation does the same whatever the result. *)
Lemma does_any {A B} (m : M A) (f : A -> M B) (R : A -> Prop) D (R' : B -> Prop) : returns m R ->
  (forall v, R v -> does (f v) D R') -> does (bind m f) D R'.
Proof.
  intros [S C] F. unfold does, bind. destruct (m E) as [es [v|x]] eqn:M; cbn [fst snd] in *.
  - destruct (C v eq_refl) as [Rv T]. destruct (F v Rv) as [S' C']. destruct (f v E) as [es' r]. cbn [fst snd] in *. split.
    + intros e I. apply in_app_or in I. destruct I as [I|I]; [destruct (S e I) as [ ? |[ ? |[]]]; tauto|exact (S' e I)].
    + intros u O. destruct (C' u O) as [Ru T']. split; [exact Ru|]. intros e X. apply in_or_app. right. auto.
  - split; [|intros u O; discriminate O]. intros e I. destruct (S e I) as [ ? |[ ? |[]]]; tauto.
Qed.
Lemma does_then {B} (m : M unit) (k : M B) D D' (R : B -> Prop) : reports m D -> does k D' R -> does (m ;;; k) (fun e => D e \/ D' e) R.
Proof.
  intros H K. eapply does_to; [eapply does_bind with (D' := fun _ => D'); [exact H|now intros [] []|intros v _; exact K]|].
  intro e. split; [intros [ ? |[v [_ ?]]]; auto|intros [ ? | ?]; [auto|right; exists tt; auto]].
Qed.
(** After something whose result does not matter. *)
Lemma does_after {A B} (m : M A) (k : M B) D (R : A -> Prop) D' (R' : B -> Prop) : does m D R -> does k D' R' -> does (bind m (fun _ => k)) (fun e => D e \/ D' e) R'.
Proof.
  intros [S C] [S' C']. unfold does, bind. destruct (m E) as [es [v|x]] eqn:M; cbn [fst snd] in *.
  - destruct (C v eq_refl) as [Rv T]. destruct (k E) as [es' r]. cbn [fst snd] in *. split.
    + intros e I. apply in_app_or in I. destruct I as [I|I]; [destruct (S e I) as [ ? |[ ? | ?]]; tauto|]. destruct (S' e I) as [ ? |[ ? | ?]]; tauto.
    + intros u O. destruct (C' u O) as [Ru T']. split; [exact Ru|]. intros e [X|X]; apply in_or_app; auto.
  - split; [|intros u O; discriminate O]. intros e I. destruct (S e I) as [ ? |[ ? | ?]]; tauto.
Qed.
Lemma does_ifM {A} c (a b : M A) D P Da Db (R : A -> Prop) : does c D (fun x => x = true <-> P) -> (P -> does a Da R) -> (~ P -> does b Db R) ->
  does (ifM c a b) (fun e => D e \/ (P /\ Da e) \/ (~ P /\ Db e)) R.
Proof.
  intros [S C] F G. unfold ifM, does, bind. destruct (c E) as [es [v|x]] eqn:M; cbn [fst snd] in *.
  - destruct (C v eq_refl) as [Rv T]. destruct v.
    + assert (p : P) by tauto. destruct (F p) as [S' C']. destruct (a E) as [es' r]. cbn [fst snd] in *. split.
      * intros e I. apply in_app_or in I. destruct I as [I|I]; [destruct (S e I) as [ ? |[ ? | ?]]; tauto|]. destruct (S' e I) as [ ? |[ ? | ?]]; tauto.
      * intros u O. destruct (C' u O) as [Ru T']. split; [exact Ru|]. intros e X. apply in_or_app. destruct X as [X|[[_ X]|[X _]]]; [left; auto|right; auto|tauto].
    + assert (p : ~ P) by (intro p; apply Rv in p; discriminate p). destruct (G p) as [S' C']. destruct (b E) as [es' r]. cbn [fst snd] in *. split.
      * intros e I. apply in_app_or in I. destruct I as [I|I]; [destruct (S e I) as [ ? |[ ? | ?]]; tauto|]. destruct (S' e I) as [ ? |[ ? | ?]]; tauto.
      * intros u O. destruct (C' u O) as [Ru T']. split; [exact Ru|]. intros e X. apply in_or_app. destruct X as [X|[[X _]|[_ X]]]; [left; auto|tauto|right; auto].
  - split; [|intros u O; discriminate O]. intros e I. destruct (S e I) as [ ? |[ ? | ?]]; tauto.
Qed.
Lemma does_if {A} (c : bool) (a b : M A) P Da Db (R : A -> Prop) : (c = true <-> P) -> (P -> does a Da R) -> (~ P -> does b Db R) ->
  does (if c then a else b) (fun e => (P /\ Da e) \/ (~ P /\ Db e)) R.
Proof.
  intros H F G. destruct c.
  - assert (p : P) by tauto. eapply does_to; [exact (F p)|tauto].
  - assert (p : ~ P) by (intro p; apply H in p; discriminate p). eapply does_to; [exact (G p)|tauto].
Qed.
Lemma does_when c a P D : tests c P -> (P -> reports a D) -> reports (when c a) (fun e => P /\ D e).
Proof.
  intros H K. eapply does_to; [eapply does_ifM with (Db := nothing); [exact H|exact K|intros _; apply does_ret; exact I]|]. unfold nothing. tauto.
Qed.
Lemma does_when_too c a D P D' : does c D (fun x => x = true <-> P) -> (P -> reports a D') -> reports (when c a) (fun e => D e \/ (P /\ D' e)).
Proof.
  intros H K. eapply does_to; [eapply does_ifM with (Db := nothing); [exact H|exact K|intros _; apply does_ret; exact I]|]. unfold nothing. tauto.
Qed.
(** The same, when what is reported is given. *)
Lemma does_under c a P (D : event -> Prop) : tests c P -> (P -> reports a D) -> (forall e, D e -> P) -> reports (when c a) D.
Proof. intros H K N. eapply does_to; [exact (does_when H K)|]. intro e. split; [tauto|]. intro d. split; [exact (N e d)|exact d]. Qed.
Lemma does_and a b D P D' Q : does a D (fun x => x = true <-> P) -> (P -> does b D' (fun x => x = true <-> Q)) ->
  does (andM a b) (fun e => D e \/ (P /\ D' e)) (fun x => x = true <-> P /\ Q).
Proof.
  intros H K. eapply does_to; [eapply does_ifM with (Db := nothing) (R := fun x => x = true <-> P /\ Q); [exact H| |]|].
  - intro p. eapply does_weak; [exact (K p)|]. intros v Hv. cbn beta in Hv. tauto.
  - intro p. apply does_ret. split; [discriminate|tauto].
  - unfold nothing. tauto.
Qed.
Lemma tests_and a b P Q : tests a P -> (P -> tests b Q) -> tests (andM a b) (P /\ Q).
Proof. intros H K. eapply does_to; [exact (does_and H K)|]. unfold nothing. tauto. Qed.
Lemma tests_or a b P Q : tests a P -> (~ P -> tests b Q) -> tests (orM a b) (P \/ Q).
Proof.
  intros H K. eapply does_to; [eapply does_ifM with (R := fun x => x = true <-> P \/ Q); [exact H| |]|].
  - intro p. apply does_ret. tauto.
  - intro p. eapply does_weak; [exact (K p)|]. intros v Hv. cbn beta in Hv. tauto.
  - unfold nothing. tauto.
Qed.
Lemma does_not a D P : does a D (fun x => x = true <-> P) -> does (notM a) D (fun x => x = true <-> ~ P).
Proof.
  intros [S C]. unfold notM, does, bind. destruct (a E) as [es [v|x]]; cbn [fst snd] in *.
  - destruct (C v eq_refl) as [Rv T]. unfold ret. cbn [fst snd]. rewrite app_nil_r. split; [exact S|]. intros u O. injection O as <-. split; [|exact T]. clear - Rv. destruct v; cbn [negb]; [|split; [intros _ q; apply Rv in q; discriminate q|reflexivity]]. split; [discriminate|]. intro q. destruct q. now apply Rv.
  - split; [exact S|intros u O; discriminate O].
Qed.
Lemma tests_not a P : tests a P -> tests (notM a) (~ P).
Proof. apply does_not. Qed.
Lemma tests_pure b P : (b = true <-> P) -> tests (pure b) P.
Proof. intro H. apply does_ret. exact H. Qed.
Lemma tests_iff c P Q : tests c P -> (P <-> Q) -> tests c Q.
Proof. intros H K. eapply does_weak; [exact H|]. intros v Hv. cbn beta in Hv. tauto. Qed.
(** A test of what was got. *)
Lemma tests_get {A} (m : M A) (R : A -> Prop) (f : A -> M bool) (P : A -> Prop) : returns m R ->
  (forall v v', R v -> R v' -> v = v') -> (forall v, R v -> tests (f v) (P v)) -> tests (bind m f) (exists v, R v /\ P v).
Proof.
  intros H U F. unfold tests. eapply returns_bind; [exact H|]. intros v Rv. eapply does_weak; [exact (F v Rv)|]. intros b B. cbn beta in B. rewrite B. split; [eauto|].
  intros [v' [R' P']]. now rewrite (U v v' Rv R').
Qed.
Lemma tests_any {A} (f : A -> M bool) (l : list A) (P : A -> Prop) : (forall x, In x l -> tests (f x) (P x)) -> tests (anyM f l) (exists x, In x l /\ P x).
Proof.
  induction l as [|x l IH]; intro H; cbn [anyM].
  - apply does_ret. split; [discriminate|intros [x [[] _]]].
  - eapply tests_iff; [apply tests_or; [apply H; now left|intros _; apply IH; intros y I; apply H; now right]|]. split.
    + intros [p|[y [I p]]]; [exists x|exists y]; split; auto; [now left|now right].
    + intros [y [[<-|I] p]]; eauto.
Qed.
Lemma tests_all {A} (f : A -> M bool) (l : list A) (P : A -> Prop) : (forall x, In x l -> tests (f x) (P x)) -> tests (allM f l) (forall x, In x l -> P x).
Proof.
  induction l as [|x l IH]; intro H; cbn [allM].
  - apply does_ret. split; [intros _ x []|reflexivity].
  - eapply tests_iff; [apply tests_and; [apply H; now left|intros _; apply IH; intros y I; apply H; now right]|]. split.
    + intros [p q] y [<-|I]; auto.
    + intro p. split; [apply p; now left|intros y I; apply p; now right].
Qed.
Lemma does_each {A} (l : list A) f (D : A -> event -> Prop) : (forall x, In x l -> reports (f x) (D x)) -> reports (for_each l f) (fun e => exists x, In x l /\ D x e).
Proof.
  induction l as [|x l IH]; intro H; cbn [for_each].
  - eapply does_to; [apply does_ret; exact I|]. intro e. split; [intros []|intros [x [[] _]]].
  - eapply does_to; [apply does_then; [apply H; now left|apply IH; intros y J; apply H; now right]|]. intro e. cbn beta. split.
    + intros [p|[y [J p]]]; [exists x|exists y]; split; auto; [now left|now right].
    + intros [y [[<-|J] p]]; eauto.
Qed.
Lemma does_seq l ts (D : event -> Prop) : Forall2 reports l ts -> (forall e, D e <-> exists t, In t ts /\ t e) -> reports (seq l) D.
Proof.
  intros F H. eapply does_to with (D := fun e => exists t, In t ts /\ t e); [|intro e; symmetry; apply H]. clear H D. unfold seq.
  induction F as [|m t l ts H F IH]; cbn [for_each].
  - eapply does_to; [apply does_ret; exact I|]. intro e. split; [intros []|intros [x [[] _]]].
  - eapply does_to; [apply does_then; [exact H|exact IH]|]. intro e. cbn beta. split.
    + intros [p|[y [J p]]]; [exists t|exists y]; split; auto; [now left|now right].
    + intros [y [[<-|J] p]]; eauto.
Qed.
End Does.

(** Fewer things on the side. *)
Lemma does_wider E (W W' : event -> Prop) {A} (m : M A) D (R : A -> Prop) : (forall e, W e -> W' e) -> does E W m D R -> does E W' m D R.
Proof. intros H [S C]. split; [|exact C]. intros e I. destruct (S e I) as [ ? |[ ? | ?]]; auto. Qed.
Lemma does_merge E (W : event -> Prop) {A} (m : M A) (D : event -> Prop) (R : A -> Prop) : does E W m D R -> (forall e, W e -> D e) -> does E nothing m D R.
Proof. intros [S C] H. split; [|exact C]. intros e I. destruct (S e I) as [ ? |[ ? | ?]]; auto. Qed.
