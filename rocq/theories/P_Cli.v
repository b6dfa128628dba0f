(** C43: the exit status; C55: identifiers in HTML reports. *)
From Coq Require Import ZifyBool ZifyNat ZifyN String.
From Verif Require Import Base Catalogue Blackboard P_Blackboard TextReport P_Reports Cli.
Open Scope nat_scope.
Open Scope list_scope.
Unset Strict Implicit.

(** ** C43 *)
Section Cli.
Context {Ctx : Type}.
Variable same_ctx : Ctx -> Ctx -> bool.
Variable request_of : nat -> option nat.
Variable responses_of : nat -> list nat.
Variable read_ops : nat -> list (@op Ctx).
Variable check : nat -> list (@op Ctx) * option failure.
Variable report : @heap Ctx -> nat -> option failure.
Variable silenced : list N.
Notation object_of := (object_of request_of responses_of).

(** *** Specification *)

(** What happened to an exchange, and to all of them: complaints made while it was
    read, the ids given on the command line silenced on it, then its checks. *)
Definition happened (e : nat) : list (@op Ctx) := read_ops e ++ (match silenced with [] => [] | _ => [Silence (Exch e) (Collection silenced)] end) ++ fst (check e).
Definition history (es : list nat) : list (@op Ctx) := flat_map happened es.
(** A notice with this id was reported about an exchange, and nobody silenced it. *)
Definition shown (ops : list (@op Ctx)) (e : nat) (id : N) : Prop :=
  exists o c, object_of e o /\ In (Complain o (id, c)) ops /\ ~ hushed request_of responses_of ops o id.
Definition at_least (threshold : severity) (id : N) : Prop :=
  exists sv, severe id sv /\ severity_rank threshold <= severity_rank sv.
(** Reading, checking or reporting an exchange touches no other exchange. *)
Definition target (x : @op Ctx) : obj := match x with Complain o _ => o | Silence o _ => o end.
Definition separate (es : list nat) : Prop :=
  NoDup es /\ (forall e x, In e es -> In x (read_ops e ++ fst (check e)) -> object_of e (target x)) /\
  (forall e e' o, In e es -> In e' es -> object_of e o -> object_of e' o -> e = e').
Definition fine (es : list nat) : Prop := forall e, In e es -> snd (check e) = None /\ forall h, report h e = None.

(** *** Proofs *)
Lemma catalogue_severity id : known_notice id = true <-> exists sv, severity_of id = Some sv.
Proof. unfold known_notice. destruct (severity_of id); split; [eauto|reflexivity|discriminate|intros [sv H]; discriminate H]. Qed.
Lemma severity_of_severe id sv : severity_of id = Some sv <-> severe id sv.
Proof.
  split; [apply find_severe|]. intros [n I <- <-]. unfold severity_of.
  destruct (find (fun n0 => (c_id n0 =? c_id n)%N) catalogue) as [n'|] eqn:F.
  - apply find_some in F. destruct F as [I' Q]. apply N.eqb_eq in Q. cbn [option_map]. now rewrite (P_Catalogue.C54_unique I' I Q).
  - exfalso. pose proof (find_none _ _ F n I) as Q. cbv beta in Q. rewrite N.eqb_refl in Q. discriminate Q.
Qed.
Lemma said_in (ops : list (@op Ctx)) o c : In c (said known_notice ops o) <-> In (Complain o c) ops /\ known_notice (fst c) = true.
Proof.
  unfold said. rewrite in_flat_map. split.
  - intros [x [I J]]. destruct x as [o' c'|o' it]; [|destruct J]. destruct (obj_eqb o' o) eqn:Q; [|destruct J]. cbn [andb] in J. destruct (known_notice (fst c')) eqn:K; [|destruct J].
    destruct J as [<-|[]]. apply obj_eqb_eq in Q. subst o'. auto.
  - intros [I K]. exists (Complain o c). split; [exact I|]. assert (Q : obj_eqb o o = true) by now apply obj_eqb_eq. rewrite Q, K. now left.
Qed.
Lemma firsts_sub (l d : list (N * Ctx)) : firsts same_ctx l d -> (forall c, In c d -> In c l) /\ (forall c, In c l -> exists x, In x d /\ fst x = fst c).
Proof.
  induction 1 as [|l r c F [IH1 IH2] N|l r c d F [IH1 IH2] I Sm].
  - split; [auto|intros c []].
  - split.
    + intros x I. apply in_app_or in I. apply in_or_app. destruct I as [I|I]; [left; auto|now right].
    + intros x I. apply in_app_or in I. destruct I as [I|[<-|[]]]; [destruct (IH2 x I) as [y [Y E]]; exists y; split; [apply in_or_app; now left|exact E]|exists c; split; [apply in_or_app; right; now left|reflexivity]].
  - split.
    + intros x J. apply in_or_app. left. auto.
    + intros x J. apply in_app_or in J. destruct J as [J|[<-|[]]]; [auto|]. exists d. split; [exact I|]. unfold same in Sm. apply andb_prop in Sm. now apply N.eqb_eq.
Qed.
Notation run := (run same_ctx known_notice request_of responses_of).
Lemma visible_id (ops : list (@op Ctx)) o id : reiterable ops ->
  (exists c, In c (complaints (run ops) o) /\ fst c = id) <-> (exists c, In (id, c) (said known_notice ops o)) /\ ~ hushed request_of responses_of ops o id.
Proof.
  intro R. destruct (@C28_silencing Ctx same_ctx known_notice request_of responses_of ops o R) as [d [q [F [Q E]]]]. rewrite E. apply firsts_sub in F. destruct F as [F1 F2]. split.
  - intros [[i c] [I <-]]. apply filter_In in I. destruct I as [I NQ]. cbn [fst] in *. split; [exists c; auto|]. intro H. apply Q in H. rewrite H in NQ. discriminate NQ.
  - intros [[c I] NH]. destruct (F2 _ I) as [y [Y K]]. cbn [fst] in K. exists y. split; [|exact K]. apply filter_In. split; [exact Y|]. destruct (q (fst y)) eqn:QY; [|reflexivity]. exfalso. apply NH. apply Q. congruence.
Qed.
Lemma severities_in (h : @heap Ctx) e sv : In sv (severities request_of responses_of h e) <-> exists o c, object_of e o /\ In c (complaints h o) /\ severity_of (fst c) = Some sv.
Proof.
  unfold severities. rewrite in_flat_map.
  assert (O : forall o, In o (Exch e :: children request_of responses_of (Exch e)) <-> object_of e o).
  { intro o. unfold P_Reports.object_of. cbn [children In]. rewrite in_app_iff, in_map_iff. destruct (request_of e) as [q|]; cbn [In]; split.
    - intros [<-|[[<-|[]]|[p [<- I]]]]; [now left|right; left; eauto|right; right; eauto].
    - intros [->|[[q' [K ->]]|[p [I ->]]]]; [now left|right; left; left; congruence|right; right; eauto].
    - intros [<-|[[]|[p [<- I]]]]; [now left|right; right; eauto].
    - intros [->|[[q' [K ->]]|[p [I ->]]]]; [now left|discriminate K|right; right; eauto]. }
  split.
  - intros [o [I J]]. apply in_flat_map in J. destruct J as [c [C J]]. destruct (severity_of (fst c)) as [v|] eqn:V; [|destruct J]. destruct J as [->|[]]. exists o, c. rewrite <- O. auto.
  - intros [o [c [Ob [C V]]]]. exists o. split; [now apply O|]. apply in_flat_map. exists c. split; [exact C|]. rewrite V. now left.
Qed.

Definition quiet_ops (o : obj) (ops : list (@op Ctx)) : Prop := forall x, In x ops -> forall o', o' = target x -> ~ part_of request_of responses_of o o'.
Lemma happened_target e x : In x (happened e) -> In x (read_ops e ++ fst (check e)) \/ exists l, x = Silence (Exch e) l.
Proof.
  unfold happened. rewrite !in_app_iff. intros [H|[H|H]]; [auto| |auto]. destruct silenced; [destruct H|]. destruct H as [<-|[]]. eauto.
Qed.
Lemma part_object e o o' : object_of e o' -> part_of request_of responses_of o o' -> object_of e o.
Proof.
  intros O [->|[e' [m [-> [-> H]]]]]; [exact O|]. destruct O as [E|[[q [_ E]]|[p [_ E]]]]; try discriminate E. assert (e' = e) by congruence. subst e'. right. destruct H as [H|H]; [left|right]; eauto.
Qed.
Lemma separate_touch es e x o : separate es -> In e es -> In x (happened e) -> part_of request_of responses_of o (target x) -> object_of e o.
Proof.
  intros [_ [T _]] I X P. apply happened_target in X. destruct X as [X|[l ->]]; [eapply part_object; [apply T; eassumption|exact P]|]. cbn [target] in P. eapply part_object; [now left|exact P].
Qed.
Lemma said_split e o l1 l2 : separate (l1 ++ e :: l2) -> object_of e o ->
  (forall c, In (Complain o c) (history (l1 ++ [e])) <-> In (Complain o c) (history (l1 ++ e :: l2))) /\
  (forall id, hushed request_of responses_of (history (l1 ++ [e])) o id <-> hushed request_of responses_of (history (l1 ++ e :: l2)) o id).
Proof.
  intros S O. assert (K : forall x, part_of request_of responses_of o (target x) -> In x (history (l1 ++ [e])) <-> In x (history (l1 ++ e :: l2))).
  { intros x P. unfold history. rewrite !in_flat_map. split.
    - intros [e' [I X]]. exists e'. split; [|exact X]. apply in_app_or in I. apply in_or_app. destruct I as [I|[<-|[]]]; [now left|right; now left].
    - intros [e' [I X]]. exists e'. split; [|exact X]. assert (O' : object_of e' o) by (eapply separate_touch; eauto). destruct S as [_ [_ D]].
      assert (e = e') by (apply D with o; auto; apply in_or_app; right; now left). subst e'. apply in_or_app. right. now left. }
  split.
  - intro c. apply K. now left.
  - intro id. unfold hushed. split; intros [o' [l [I [P J]]]]; exists o', l; (split; [apply (K (Silence o' (Collection l))); assumption|auto]).
Qed.
Lemma silences_not l1 l2 : reiterable (history (l1 ++ l2)) -> @reiterable Ctx (history l1).
Proof. intros R o l I. apply (R o l). unfold history in *. rewrite flat_map_app. apply in_or_app. now left. Qed.

Lemma generated read_end es2 : forall es1 counted, fine es2 ->
  generate same_ctx request_of responses_of read_ops read_end check report silenced (history es1) counted es2 =
  match read_end with None => inl (counted ++ flat_map (fun n => severities request_of responses_of (run (history (es1 ++ firstn (S n) es2))) (nth n es2 0)) (seq 0 (List.length es2))) | Some f => inr f end.
Proof.
  induction es2 as [|e es2 IH]; intros es1 counted F; cbn [generate].
  - destruct read_end; [reflexivity|]. cbn. now rewrite app_nil_r.
  - destruct (F e (or_introl eq_refl)) as [C R]. destruct (check e) as [ops [f|]] eqn:CE; [discriminate C|].
    assert (H : ((history es1 ++ read_ops e ++ match silenced with [] => [] | _ :: _ => [Silence (Exch e) (Collection silenced)] end) ++ ops) = history (es1 ++ [e])).
    { unfold history. rewrite flat_map_app. cbn [flat_map]. assert (HE : happened e = read_ops e ++ (match silenced with [] => [] | _ :: _ => [Silence (Exch e) (Collection silenced)] end) ++ ops) by (unfold happened; now rewrite CE). rewrite HE. now rewrite app_nil_r, <- !app_assoc. }
    cbv zeta. rewrite H, R, IH; [|intros e' I; apply F; now right]. destruct read_end; [reflexivity|]. f_equal. rewrite <- app_assoc. f_equal.
    cbn [List.length seq flat_map nth]. f_equal. rewrite <- seq_shift, flat_map_concat_map, flat_map_concat_map, map_map. f_equal. apply map_ext. intro n. cbn [nth firstn]. now rewrite <- app_assoc.
Qed.
Lemma severity_eqb_eq a b : severity_eqb a b = true <-> a = b.
Proof. destruct a, b; cbn; split; congruence. Qed.

(** C43.  If nothing fails, the exit status is 1 exactly when [--fail-on] was given
    and there is a notice of at least that severity that was reported and not
    silenced; otherwise it is 0. *)
Theorem C43_status : forall es fail_on, separate es -> reiterable (history es) -> fine es ->
  let result := run_cli same_ctx request_of responses_of read_ops None check report silenced fail_on es in
  (result = Exit 1 <-> exists threshold e id, fail_on = Some threshold /\ In e es /\ shown (history es) e id /\ at_least threshold id) /\
  (result = Exit 0 \/ result = Exit 1).
Proof.
  intros es fail_on S R F. cbv zeta. unfold run_cli. change (@nil (@op Ctx)) with (history []). rewrite (@generated None es [] [] F). cbn [app].
  destruct fail_on as [threshold|]; [|split; [split; [discriminate|intros [t [e [id [H _]]]]; discriminate H]|now left]].
  match goal with |- context [existsb ?f ?l] => set (b := existsb f l) end.
  assert (B : b = true <-> exists e id, In e es /\ shown (history es) e id /\ at_least threshold id).
  2:{ split; [|destruct b; auto]. destruct b; (split; [try discriminate|]).
    - intros _. destruct B as [B _]. destruct (B eq_refl) as [e [id H]]. exists threshold, e, id. tauto.
    - reflexivity.
    - intros [t [e [id [T H]]]]. assert (t = threshold) by congruence. subst t. destruct B as [_ B]. assert (false = true); [|congruence]. apply B. eauto. }
  subst b. rewrite existsb_exists.
  assert (G : forall sv, (exists n, In n (seq 0 (List.length es)) /\ In sv (severities request_of responses_of (run (history (firstn (Datatypes.S n) es))) (nth n es 0))) <->
    exists e id, In e es /\ shown (history es) e id /\ severe id sv).
  { intro sv. split.
    - intros [n [N H]]. apply in_seq in N. destruct (nth_split es 0 (n := n)) as [l1 [l2 [ES L]]]; [lia|]. set (e := nth n es 0) in *.
      assert (P : firstn (Datatypes.S n) es = l1 ++ [e]). { rewrite ES. replace (Datatypes.S n) with (List.length l1 + 1) by lia. rewrite firstn_app_2. reflexivity. }
      rewrite P in H. apply severities_in in H. destruct H as [o [c [O [C V]]]]. exists e, (fst c). split; [rewrite ES; apply in_or_app; right; now left|]. split; [|now apply severity_of_severe].
      assert (RE : reiterable (history (l1 ++ [e]))). { apply silences_not with l2. rewrite <- app_assoc. cbn [app]. now rewrite <- ES. }
      destruct (@visible_id _ o (fst c) RE) as [VI _]. destruct VI as [[ctx SI] NH]; [eauto|]. apply said_in in SI. destruct SI as [SI _].
      rewrite ES in S. destruct (said_split S O) as [SS HS]. exists o, ctx. split; [exact O|]. rewrite ES. split; [now apply SS|]. intro K. apply NH. now apply HS.
    - intros [e [id [I [[o [c [O [SI NH]]]] V]]]]. apply in_split in I. destruct I as [l1 [l2 ES]]. exists (List.length l1).
      split; [apply in_seq; rewrite ES, app_length; cbn; lia|]. rewrite ES. replace (Datatypes.S (List.length l1)) with (List.length l1 + 1) by lia. rewrite firstn_app_2. cbn [firstn].
      rewrite app_nth2 by lia. rewrite Nat.sub_diag. cbn [nth]. apply severities_in.
      assert (RE : reiterable (history (l1 ++ [e]))). { apply silences_not with l2. rewrite <- app_assoc. cbn [app]. now rewrite <- ES. }
      rewrite ES in S, SI, NH. destruct (said_split S O) as [SS HS]. destruct (@visible_id _ o id RE) as [_ VI]. destruct VI as [d [D E]].
      + split; [exists c; apply said_in; split; [now apply SS|]|intro K; apply NH; now apply HS]. apply catalogue_severity. exists sv. now apply severity_of_severe.
      + exists o, d. split; [exact O|]. split; [exact D|]. rewrite E. now apply severity_of_severe. }
  split.
  - intros [sv [_ H]]. apply andb_prop in H. destruct H as [L H]. apply existsb_exists in H. destruct H as [sv' [I Q]]. apply severity_eqb_eq in Q. subst sv'. apply in_flat_map in I.
    apply (proj1 (G sv)) in I. destruct I as [e [id [I [SH V]]]]. exists e, id. repeat split; auto. exists sv. split; [exact V|]. unfold severity_le in L. now apply Nat.leb_le.
  - intros [e [id [I [SH [sv [V L]]]]]]. exists sv. split; [destruct sv; cbn; auto|]. unfold severity_le. apply Nat.leb_le in L. rewrite L. cbn [andb]. apply existsb_exists. exists sv. split; [|now apply severity_eqb_eq].
    apply in_flat_map. apply (proj2 (G sv)). eauto.
Qed.

(** C43.  A failure that stops the program gives status 1 if it is an error of the
    input or output, whatever the options and notices; any other exception is not
    caught. *)
Definition stops (f : failure) : ending := match f with Caught => Exit 1 | Uncaught => Crash end.
Inductive fails (es : list nat) (read_end : option failure) (f : failure) : Prop :=
| fails_reading : fine es -> read_end = Some f -> fails es read_end f
| fails_checking es1 e es2 : es = es1 ++ e :: es2 -> fine es1 -> snd (check e) = Some f -> fails es read_end f
| fails_reporting es1 e es2 : es = es1 ++ e :: es2 -> fine es1 -> snd (check e) = None -> (forall h, report h e = Some f) -> fails es read_end f.
Theorem C43_failure : forall es read_end fail_on f, fails es read_end f ->
  run_cli same_ctx request_of responses_of read_ops read_end check report silenced fail_on es = stops f.
Proof.
  assert (G : forall es1 rest h counted read_end, fine es1 -> exists h' counted', generate same_ctx request_of responses_of read_ops read_end check report silenced h counted (es1 ++ rest) =
    generate same_ctx request_of responses_of read_ops read_end check report silenced h' counted' rest).
  { induction es1 as [|e es1 IH]; intros rest h counted read_end F; cbn [app]; [eauto|]. cbn [generate]. destruct (F e (or_introl eq_refl)) as [C R]. destruct (check e) as [ops [f|]]; [discriminate C|].
    cbv zeta. rewrite R. apply IH. intros e' I. apply F. now right. }
  intros es read_end fail_on f H. unfold run_cli. destruct H as [F E|es1 e es2 -> F C|es1 e es2 -> F C R].
  - rewrite <- (app_nil_r es). destruct (G es [] [] [] read_end F) as [h [counted ->]]. cbn [generate]. rewrite E. reflexivity.
  - destruct (G es1 (e :: es2) [] [] read_end F) as [h [counted ->]]. cbn [generate]. destruct (check e) as [ops [g|]]; [|discriminate C]. assert (g = f) by (cbn in C; congruence). subst g. reflexivity.
  - destruct (G es1 (e :: es2) [] [] read_end F) as [h [counted ->]]. cbn [generate]. destruct (check e) as [ops [g|]]; [discriminate C|]. cbv zeta. rewrite R. reflexivity.
Qed.
End Cli.
Print Assumptions C43_status.
Print Assumptions C43_failure.
(** Two exchanges; the second has an error, unless it is silenced. *)
Definition two_request (e : nat) : option nat := Some e.
Definition two_check (e : nat) : list (@op unit) * option failure := (match e with 1 => [Complain (Msg 1) (1000%N, tt)] | _ => [Complain (Msg 0) (1277%N, tt)] end, None).
Definition two_run (silenced : list N) (fail_on : option severity) : ending :=
  run_cli (fun _ _ => true) two_request (fun _ => []) (fun _ => []) None two_check (fun _ _ => None) silenced fail_on [0; 1].
Example C43_example :
  separate two_request (fun _ => []) (fun _ => []) two_check [0; 1] /\
  reiterable (history (fun _ => []) two_check [1000%N] [0; 1]) /\ fine two_check (fun _ _ => None) [0; 1] /\
  two_run [] (Some Error) = Exit 1 /\ two_run [1000%N] (Some Error) = Exit 0 /\ two_run [1000%N] (Some Comment) = Exit 1 /\ two_run [] None = Exit 0.
Proof.
  split; [|split; [|split; [|repeat split; vm_compute; reflexivity]]].
  - split; [repeat constructor; cbn; intuition discriminate|]. split.
    + intros e x I X. cbn [app two_check fst] in X. right. left. exists e. split; [reflexivity|]. destruct I as [<-|[<-|[]]]; destruct X as [<-|[]]; reflexivity.
    + intros e e' o _ _ A B. unfold P_Reports.object_of, two_request in *.
      destruct A as [->|[[q [Q ->]]|[p [[] _]]]]; destruct B as [B|[[q' [Q' B]]|[p [[] _]]]]; congruence.
  - intros o l I. cbn in I. intuition discriminate.
  - intros e _. split; reflexivity.
Qed.

(** ** C55 *)

(** What the dictionary holds: the distinct keys in order of first use. *)
Definition dense (st : seen_ids) : Prop := NoDup (map fst st) /\ forall i p, nth_error st i = Some p -> snd p = i.
Lemma find_key (st : seen_ids) k : match find (fun p => N.eqb (fst p) k) st with Some p => In p st /\ fst p = k | None => ~ In k (map fst st) end.
Proof.
  destruct (find (fun p => N.eqb (fst p) k) st) as [p|] eqn:F.
  - apply find_some in F. destruct F as [I Q]. apply N.eqb_eq in Q. auto.
  - intro I. apply in_map_iff in I. destruct I as [p [<- I]]. pose proof (find_none _ _ F p I) as Q. cbv beta in Q. rewrite N.eqb_refl in Q. discriminate Q.
Qed.
Lemma anonymize_dense (st : seen_ids) k : dense st -> let (st', r) := anonymize st k in dense st' /\ In (k, r) st' /\ (forall p, In p st -> In p st') /\ (forall p, In p st' -> In p st \/ fst p = k).
Proof.
  intros [ND D]. unfold anonymize. pose proof (find_key st k) as F. destruct (find (fun p => N.eqb (fst p) k) st) as [[k' r]|].
  - cbn [fst snd] in *. destruct F as [I ->]. repeat split; auto.
  - split; [split|split; [apply in_or_app; right; now left|split; [intros p I; apply in_or_app; now left|]]].
    + rewrite map_app. cbn [map fst]. apply NoDup_rev in ND. rewrite <- (rev_involutive (map fst st ++ [k])). apply NoDup_rev. rewrite rev_app_distr. cbn [rev app]. constructor; [now rewrite <- in_rev|exact ND].
    + intros i p N. destruct (Nat.lt_ge_cases i (List.length st)) as [L|L]; [rewrite nth_error_app1 in N by exact L; now apply D|]. rewrite nth_error_app2 in N by exact L.
      destruct (i - List.length st) as [|m] eqn:M; [|destruct m; discriminate N]. cbn in N. assert (p = (k, List.length st)) by congruence. subst p. cbn. lia.
    + intros p I. apply in_app_or in I. destruct I as [I|[<-|[]]]; [now left|now right].
Qed.
Lemma dense_inj (st : seen_ids) k k' r : dense st -> In (k, r) st -> In (k', r) st -> k = k'.
Proof.
  intros [_ D] A B. apply In_nth_error in A. apply In_nth_error in B. destruct A as [i A]. destruct B as [j B]. pose proof (D i _ A) as Ei. pose proof (D j _ B) as Ej. cbn in Ei, Ej. assert (i = j) by congruence. subst j. congruence.
Qed.
Lemma dense_fun (st : seen_ids) k r r' : dense st -> In (k, r) st -> In (k, r') st -> r = r'.
Proof.
  intros [ND _]. induction st as [|[k0 r0] st IH]; intros A B; [destruct A|]. cbn [map fst] in ND. inversion ND as [|? ? NI ND']; subst.
  assert (K : forall r, In (k0, r) st -> False) by (intros q I; apply NI; apply in_map_iff; exists (k0, q); auto).
  destruct A as [A|A]; destruct B as [B|B]; [congruence| | |now apply IH].
  - injection A as -> ->. destruct (K _ B).
  - injection B as -> ->. destruct (K _ A).
Qed.
Lemma anonymize_all_in ks : forall st, dense st -> exists st', dense st' /\ (forall p, In p st -> In p st') /\ Forall2 (fun k r => In (k, r) st') ks (anonymize_all st ks).
Proof.
  induction ks as [|k ks IH]; intros st D; cbn [anonymize_all]; [exists st; auto|]. pose proof (anonymize_dense k D) as A. destruct (anonymize st k) as [st1 r]. destruct A as [D1 [I1 [S1 _]]].
  destruct (IH st1 D1) as [st' [D' [S' F]]]. exists st'. repeat split; [apply D'|apply D'|auto|]. constructor; [now apply S'|exact F].
Qed.
Lemma forall2_nth {A B} (R : A -> B -> Prop) l m : Forall2 R l m -> forall i a b, nth_error l i = Some a -> nth_error m i = Some b -> R a b.
Proof. induction 1 as [|x y l m H F IH]; intros [|i] a b X Y; try discriminate X; cbn in *; [congruence|eauto]. Qed.

(** C55.  In any sequence of uses of objects, two uses get the same number exactly
    if they are of objects with the same identity. *)
Theorem C55_same : forall rs i j k l a b, 
  nth_error (flat_map referent_ids rs) i = Some k -> nth_error (flat_map referent_ids rs) j = Some l ->
  nth_error (reference_ids rs) i = Some a -> nth_error (reference_ids rs) j = Some b -> (a = b <-> k = l).
Proof.
  intros rs i j k l a b K L A B. unfold reference_ids in *. destruct (@anonymize_all_in (flat_map referent_ids rs) []) as [st [D [_ F]]]; [split; [constructor|intros [|n] p; discriminate]|].
  pose proof (forall2_nth F K A) as IA. pose proof (forall2_nth F L B) as IB. split; intros <-; [exact (dense_inj D IA IB)|exact (dense_fun D IA IB)].
Qed.
Print Assumptions C55_same.
Lemma anonymize_all_length ks : forall st, List.length (anonymize_all st ks) = List.length ks.
Proof. induction ks as [|k ks IH]; intro st; cbn [anonymize_all]; [reflexivity|]. destruct (anonymize st k). cbn [List.length]. now rewrite IH. Qed.

(** C55.  Numbers are given out densely, in order of first use: the first use of a
    new object gets the number of different objects used before. *)
Theorem C55_dense : forall rs i k a, nth_error (flat_map referent_ids rs) i = Some k -> nth_error (reference_ids rs) i = Some a ->
  ~ In k (firstn i (flat_map referent_ids rs)) -> exists distinct, NoDup distinct /\ (forall x, In x distinct <-> In x (firstn i (flat_map referent_ids rs))) /\ a = List.length distinct.
Proof.
  intros rs i k a K A N. unfold reference_ids in A. revert i k a K A N. generalize (flat_map referent_ids rs) as ks. intros ks.
  assert (G : forall ks st i k a, dense st -> nth_error ks i = Some k -> nth_error (anonymize_all st ks) i = Some a -> ~ In k (map fst st) -> ~ In k (firstn i ks) ->
    exists distinct, NoDup distinct /\ (forall x, In x distinct <-> In x (map fst st) \/ In x (firstn i ks)) /\ a = List.length distinct).
  { clear ks. induction ks as [|k0 ks IH]; intros st i k a D K A NS N; [destruct i; discriminate K|]. cbn [anonymize_all] in A. destruct (anonymize st k0) as [st1 r] eqn:AN. destruct i as [|i].
    - cbn in K, A. assert (k0 = k) by congruence. assert (r = a) by congruence. subst k0 r. exists (map fst st). split; [apply D|]. split; [intro x; cbn; tauto|].
      unfold anonymize in AN. pose proof (find_key st k) as F. destruct (find (fun p => N.eqb (fst p) k) st) as [p|]; [destruct F as [I <-]; exfalso; apply NS, in_map, I|]. rewrite map_length. congruence.
    - pose proof (anonymize_dense k0 D) as Q. rewrite AN in Q. destruct Q as [D1 [I1 [S1 B1]]]. cbn [nth_error firstn In] in *.
      destruct (IH st1 i k a D1 K A) as [d [ND [X L]]].
      + intro I. apply in_map_iff in I. destruct I as [p [<- I]]. destruct (B1 p I) as [J|J]; [apply NS, in_map, J|apply N; now left].
      + intro I. apply N. now right.
      + exists d. split; [exact ND|]. split; [|exact L]. intro x. rewrite X. split.
        * intros [I|I]; [|auto]. apply in_map_iff in I. destruct I as [p [<- I]]. destruct (B1 p I) as [J|J]; [left; now apply in_map|right; left; now symmetry].
        * intros [I|[<-|I]]; [left|left|auto]. { apply in_map_iff in I. destruct I as [p [<- I]]. apply in_map, S1, I. } { apply in_map_iff. exists (k0, r). auto. } }
  intros i k a K A N. destruct (G ks [] i k a) as [d [ND [X L]]]; auto; [split; [constructor|intros [|n] p; discriminate]|].
  exists d. split; [exact ND|]. split; [|exact L]. intro x. rewrite X. cbn. tauto.
Qed.
Print Assumptions C55_dense.
Example C55_example : reference_ids [Object 70; Several [Object 90; Object 70]; HeaderOf [5; 90]]%N = [0; 1; 0; 2; 1].
Proof. reflexivity. Qed.

(** C55 speaks of identities, that is, of what [id()] gives.  Python only promises
    that these differ for objects that exist at the same time, and exchanges may
    be freed while the report is being written.  Two different objects, one of
    which is freed before the other is made, may get the same number. *)
Definition distinct_numbers (address : nat -> N) (objects : list nat) : Prop :=
  forall i j x y a b, nth_error objects i = Some x -> nth_error objects j = Some y ->
    nth_error (reference_ids (map (fun o => Object (address o)) objects)) i = Some a -> nth_error (reference_ids (map (fun o => Object (address o)) objects)) j = Some b -> a = b -> x = y.
Lemma objects_ids (address : nat -> N) objects : flat_map referent_ids (map (fun o => Object (address o)) objects) = map address objects.
Proof. induction objects as [|o l IH]; [reflexivity|]. cbn. now rewrite IH. Qed.
Theorem C55_objects : forall (address : nat -> N) objects, (forall x y, In x objects -> In y objects -> address x = address y -> x = y) -> distinct_numbers address objects.
Proof.
  intros address objects Inj i j x y a b X Y A B E. apply Inj; [eapply nth_error_In, X|eapply nth_error_In, Y|].
  refine (proj1 (C55_same (rs := map (fun o => Object (address o)) objects) (i := i) (j := j) _ _ A B) E); rewrite objects_ids; now apply map_nth_error.
Qed.
Print Assumptions C55_objects.
Theorem C55_reuse_refuted : ~ (forall address objects, distinct_numbers address objects).
Proof. intro H. specialize (H (fun _ => 7%N) [1; 2] 0 1 1 2 0 0 eq_refl eq_refl eq_refl eq_refl eq_refl). discriminate H. Qed.
