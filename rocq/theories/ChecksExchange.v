(** What the checks of requests, responses and exchanges can report. *)
From Coq Require Import ZifyBool ZifyNat ZifyN String.
From Verif Require Import Base Earley Grammar Syntax Actions Nested P_Types Text Structure Known Tables Header Values Notices ChecksBase ChecksLogic ChecksViews ChecksMessage ChecksRequest ChecksResponse ChecksSays ChecksTop.
Open Scope nat_scope.
Open Scope list_scope.
Unset Strict Implicit.
Local Open Scope string_scope.
Local Open Scope list_scope.

Section Exchange.
Variable E : env.
Hypothesis http : parses_http (e_read E).
Variable P : event -> Prop.

Lemma items_says j name t : hears E P (j_who j) (j_msg j) t -> emits E P (items j name).
Proof. intro H. unfold items. apply emits_bind; [apply emits_bind; [eapply view_says; eassumption|intros; apply emits_ret]|]. intros. apply emits_bind; [apply emits_some|]. intros. apply emits_ret. Qed.
Lemma silence_ids_says keep l : emits E P (silence_ids keep l).
Proof.
  unfold silence_ids. apply emits_bind; [|intros; apply emits_ret]. apply emits_map. intros v _. apply emits_bind; [apply emits_some|]. intros [k r] _. cbn [fst snd].
  destruct k; first [apply emits_ret|apply emits_raise].
Qed.
Lemma silencing_says j j' name keep t : hears E P (j_who j) (j_msg j) t -> (forall ids, P (Silenced (j_who j') ids)) -> emits E P (l <- items j name ;; ids <- silence_ids keep l ;; silence j' ids).
Proof. intros H S. apply emits_bind; [eapply items_says; exact H|]. intros l _. apply emits_bind; [apply silence_ids_says|]. intros ids _. apply emits_silence, S. Qed.

Lemma follows_all w g ts ms : Forall2 (follows E w g) ts ms -> Forall (hears E P w g) ts -> forall m, In m ms -> emits E P m.
Proof. intro F. induction F as [|t m ts ms A F IH]; intros H m' I; [destruct I|]. inversion H as [ | ? ? H1 H2]; subst. destruct I as [<-|I]; [exact (A P H1)|exact (IH H2 m' I)]. Qed.
Definition hears2 n (p : response) (req : option request) (t : table * table) : Prop :=
  hears E P (Resp n) (p_msg p) (fst t) /\ forall q, req = Some q -> hears E P Req (q_msg q) (snd t).
Lemma follows2_all n p req ts ms : Forall2 (follows2 E n p req) ts ms -> Forall (hears2 n p req) ts -> forall m, In m ms -> emits E P m.
Proof.
  intro F. induction F as [|t m ts ms A F IH]; intros H m' I; [destruct I|]. inversion H as [ | ? ? H1 H2]; subst.
  destruct I as [<-|I]; [exact (A P (proj1 H1) (proj2 H1))|exact (IH H2 m' I)].
Qed.

Lemma request_emits q : (forall ids, P (Silenced Req ids)) -> Forall (hears E P Req (q_msg q)) request_tables -> emits E P (check_request q).
Proof.
  intros S H. unfold check_request. change (request_checks q) with (silence_own q :: tl (request_checks q)). apply emits_seq. intros m [<-|I].
  - apply silencing_says with (t := t_check_each_header); [|exact S]. rewrite Forall_forall in H. apply H. now left.
  - exact (follows_all (request_follows http q) H I).
Qed.
Definition tables_of (p : response) : list (table * table) := response_tables (p_status p =? 103)%Z ++ context_tables (p_status p =? 103)%Z.
Lemma response_emits n p req : (forall ids, P (Silenced (Resp n) ids)) -> Forall (hears2 n p req) (tables_of p) -> emits E P (check_response n p req).
Proof.
  intros S H. unfold tables_of in H. apply Forall_app in H. destruct H as [H K].
  assert (H0 : hears2 n p req (t_check_each_header, [])) by (rewrite Forall_forall in H; apply H; now left). unfold check_response, check_response_itself. apply emits_bind.
  - change (response_checks n p req) with (silence_itself n p req :: tl (response_checks n p req)). apply emits_seq. intros m [<-|I].
    + apply silencing_says with (t := t_check_each_header); [exact (proj1 H0)|exact S].
    + exact (follows2_all (response_follows http n p req) H I).
  - intros _ _. destruct req as [q|]; [|apply emits_ret]. unfold check_response_in_context.
    change (context_checks n p (Some q) q) with (silence_from_request n p (Some q) q :: tl (context_checks n p (Some q) q)). apply emits_seq. intros m [<-|I].
    + apply silencing_says with (t := []); [exact (proj2 H0 q eq_refl)|exact S].
    + exact (follows2_all (context_follows http n p (eq_refl : Some q = Some q)) K I).
Qed.
End Exchange.

(** ** Notices that a table does not have *)
Definition lacks (id : N) (t : table) : bool := forallb (fun e => negb (N.eqb (fst e) id)) t.
Definition other (id : N) (e : event) : Prop := match e with Said _ i _ => i <> id | Silenced _ _ => True end.
Section Lacks.
Variable E : env.
Hypothesis http : parses_http (e_read E).
Lemma lacks_hears id w g t : lacks id (header_notices ++ t) = true -> hears E (other id) w g t.
Proof.
  unfold lacks. rewrite forallb_app, andb_true_iff. intros [H K].
  apply hears_all; [exact http| |]; intros i ctx [keys [I _]]; cbn [other fst] in *; [pose proof (proj1 (forallb_forall _ _) H _ I) as Q|pose proof (proj1 (forallb_forall _ _) K _ I) as Q];
  cbn [fst] in Q; apply negb_true_iff, N.eqb_neq in Q; exact Q.
Qed.
Definition all_lack (id : N) (ts : list table) : bool := forallb (fun t => lacks id (header_notices ++ t)) ts.
Lemma all_lack_hears id w g ts : all_lack id ts = true -> Forall (hears E (other id) w g) ts.
Proof. intro H. apply Forall_forall. intros t I. apply lacks_hears. exact (proj1 (forallb_forall _ _) H t I). Qed.
Definition all_lack2 (id : N) (ts : list (table * table)) : bool := forallb (fun t => lacks id (header_notices ++ fst t) && lacks id (header_notices ++ snd t)) ts.
Lemma all_lack2_hears id n p req ts : all_lack2 id ts = true -> Forall (hears2 E (other id) n p req) ts.
Proof. intro H. apply Forall_forall. intros t I. pose proof (proj1 (forallb_forall _ _) H t I) as Q. cbv beta in Q. apply andb_true_iff in Q. destruct Q. split; [|intros q _]; now apply lacks_hears. Qed.
End Lacks.

Section Never.
Variable E : env.
Hypothesis http : parses_http (e_read E).
Lemma never_on_request id q : all_lack id request_tables = true -> forall w ctx, ~ In (Said w id ctx) (fst (check_request q E)).
Proof.
  intros H w ctx I. assert (Q : emits E (other id) (check_request q)) by (apply request_emits; [exact http|constructor|now apply all_lack_hears]).
  unfold emits in Q. rewrite Forall_forall in Q. exact (Q _ I eq_refl).
Qed.
Lemma never_on_response id n p req : all_lack2 id (tables_of p) = true -> forall w ctx, ~ In (Said w id ctx) (fst (check_response n p req E)).
Proof.
  intros H w ctx I. assert (Q : emits E (other id) (check_response n p req)) by (apply response_emits; [exact http|constructor|now apply all_lack2_hears]).
  unfold emits in Q. rewrite Forall_forall in Q. exact (Q _ I eq_refl).
Qed.
End Never.
