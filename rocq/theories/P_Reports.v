(** C44: what the text report says. *)
From Coq Require Import ZifyBool ZifyNat ZifyN String.
From Verif Require Import Base Grammar Text P_Util Actions Structure Known Tables Header Catalogue Titles Blackboard ChecksBase ChecksResponse ChecksExample P_Types P_Exchange Reports P_Catalogue TextReport.
Open Scope nat_scope.
Open Scope list_scope.
Unset Strict Implicit.
Local Open Scope string_scope.
Local Open Scope list_scope.

(** ** Specification: how a person reads the report *)

(** The lines of a text. *)
Fixpoint lines_from (cur x : str) : list str :=
  match x with
  | [] => match cur with [] => [] | _ => [cur] end
  | c :: x' => if (c =? 10)%N then cur :: lines_from [] x' else lines_from (cur ++ [c]) x'
  end.
Definition lines (x : str) : list str := lines_from [] x.
(** A line such as [E 1000 Syntax error in Age header] stands for a notice, with a
    letter for the severity, and the id; other lines do not. *)
Fixpoint number_then_space (acc : N) (x : str) : option N :=
  match x with
  | c :: x' => if (c =? 32)%N then Some acc else if ((48 <=? c) && (c <=? 57))%N then number_then_space (10 * acc + (c - 48)) x' else None
  | [] => None
  end.
Definition read_line (l : str) : option (severity * N) :=
  match l with
  | c :: sp :: r =>
      if (sp =? 32)%N then
        match (if (c =? 69)%N then Some Error else if (c =? 67)%N then Some Comment else if (c =? 68)%N then Some Debug else None), number_then_space 0 r with
        | Some sv, Some n => Some (sv, n)
        | _, _ => None
        end
      else None
  | _ => None
  end.
(** The severity that the catalogue has for an id. *)
Inductive severe (id : N) (sv : severity) : Prop :=
| severe_in n : In n catalogue -> c_id n = id -> c_severity n = sv -> severe id sv.

Definition one_line (x : str) : Prop := ~ In 10%N x.

(** ** Proofs *)
Lemma lines_from_line l : forall cur x, one_line l -> lines_from cur (l ++ 10%N :: x) = (cur ++ l) :: lines x.
Proof.
  induction l as [|c l IH]; intros cur x O; cbn [app lines_from].
  - rewrite N.eqb_refl, app_nil_r. reflexivity.
  - destruct (N.eqb_spec c 10) as [->|]; [exfalso; apply O; now left|]. rewrite IH; [|intro I; apply O; now right]. now rewrite <- app_assoc.
Qed.
Lemma lines_line l x : one_line l -> lines (l ++ newline ++ x) = l :: lines x.
Proof. intro O. exact (lines_from_line [] x O). Qed.
Lemma dec_value_from_snoc x : forall a d, dec_value_from a (x ++ [d]) = (10 * dec_value_from a x + (d - 48))%N.
Proof. induction x as [|c x IH]; intros a d; cbn [app dec_value_from]; [reflexivity|apply IH]. Qed.
Definition is_dec (c : N) : Prop := (48 <= c <= 57)%N.
Lemma dec_digits_spec fuel : forall n acc, (n < 10 ^ N.of_nat fuel)%N -> fuel <> 0 ->
  exists ds, dec_digits fuel n acc = ds ++ acc /\ ds <> [] /\ Forall is_dec ds /\ dec_value ds = n.
Proof.
  induction fuel as [|fuel IH]; intros n acc L NZ; [congruence|]. cbn [dec_digits]. pose proof (N.mod_lt n 10 ltac:(discriminate)) as M.
  assert (D : is_dec (48 + n mod 10)) by (unfold is_dec; lia).
  destruct (N.ltb_spec n 10) as [T|T].
  - exists [(48 + n mod 10)%N]. repeat split; [discriminate|now constructor|]. cbn [dec_value dec_value_from]. unfold dec_value. cbn [dec_value_from]. rewrite N.mod_small by exact T. lia.
  - assert (F : fuel <> 0). { intros ->. change (10 ^ N.of_nat 1)%N with 10%N in L. lia. }
    destruct (IH (n / 10)%N ((48 + n mod 10)%N :: acc)) as [ds [E [NE [A V]]]]; [|exact F|].
    + apply N.div_lt_upper_bound; [discriminate|]. rewrite Nat2N.inj_succ, N.pow_succ_r' in L. exact L.
    + exists (ds ++ [(48 + n mod 10)%N]). rewrite E, <- app_assoc. repeat split.
      * destruct ds; discriminate.
      * apply Forall_app. split; [exact A|now constructor].
      * unfold dec_value in *. rewrite dec_value_from_snoc, V. pose proof (N.div_mod n 10 ltac:(discriminate)) as DM. lia.
Qed.
Lemma size_bound n : (n < 10 ^ N.of_nat (S (N.size_nat n)))%N.
Proof.
  assert (H : (n < 2 ^ N.of_nat (N.size_nat n))%N).
  { destruct n as [|p]; [reflexivity|]. cbn [N.size_nat]. induction p as [p IH|p IH|]; cbn [Pos.size_nat].
    - rewrite Nat2N.inj_succ, N.pow_succ_r'. lia.
    - rewrite Nat2N.inj_succ, N.pow_succ_r'. lia.
    - reflexivity. }
  rewrite Nat2N.inj_succ, N.pow_succ_r'. assert (G : (2 ^ N.of_nat (N.size_nat n) <= 10 ^ N.of_nat (N.size_nat n))%N) by (apply N.pow_le_mono_l; lia). lia.
Qed.
Lemma dec_str_spec n : dec_str n <> [] /\ Forall is_dec (dec_str n) /\ dec_value (dec_str n) = n.
Proof.
  unfold dec_str. destruct (@dec_digits_spec (S (N.size_nat n)) n [] (size_bound n) ltac:(discriminate)) as [ds [E [A [B C]]]]. rewrite E, app_nil_r. auto.
Qed.
Lemma number_read x : forall a y, Forall is_dec x -> number_then_space a (x ++ 32%N :: y) = Some (dec_value_from a x).
Proof.
  induction x as [|c x IH]; intros a y F; cbn [app number_then_space dec_value_from]; [now rewrite N.eqb_refl|].
  inversion F as [ | ? ? D F']; subst. unfold is_dec in D. destruct (N.eqb_spec c 32) as [->|]; [lia|].
  replace ((48 <=? c) && (c <=? 57))%N with true by lia. now apply IH.
Qed.

Lemma one_line_app a b : one_line a -> one_line b -> one_line (a ++ b).
Proof. intros A B I. apply in_app_or in I. destruct I; [now apply A|now apply B]. Qed.
Lemma one_line_by x : existsb (N.eqb 10) x = false -> one_line x.
Proof. intros H I. assert (T : existsb (N.eqb 10) x = true); [|congruence]. apply existsb_exists. exists 10%N. split; [exact I|apply N.eqb_refl]. Qed.
Lemma printable_one_line x : one_line x -> one_line (printable x).
Proof.
  intros O I. unfold printable in I. apply in_map_iff in I. destruct I as [c [E I]]. destruct (unprintable c); [discriminate E|]. subst c. now apply O.
Qed.
Lemma dec_one_line n : one_line (dec_str n).
Proof. destruct (dec_str_spec n) as [_ [F _]]. intro I. rewrite Forall_forall in F. apply F in I. unfold is_dec in I. lia. Qed.
Lemma show_one_line z : one_line (show z).
Proof. destruct z; cbn [show]; [apply one_line_by; reflexivity|apply dec_one_line|apply one_line_app; [apply one_line_by; reflexivity|apply dec_one_line]]. Qed.
Lemma firstn_in {A} (c : A) l : forall n, In c (firstn n l) -> In c l.
Proof. induction l as [|d l IH]; intros [|n] I; cbn [firstn] in I; try easy. destruct I as [->|I]; [now left|right; eauto]. Qed.
Lemma ellipsize_in x n c : In c (ellipsize x n) -> In c x \/ c = 46%N.
Proof.
  unfold ellipsize. destruct (Z.of_nat (List.length x) <=? n)%Z; [now left|]. intro I. apply in_app_or in I. destruct I as [I|I].
  - left. unfold slice_to in I. destruct (n - 3 <? 0)%Z; eapply firstn_in, I.
  - right. change (s "...") with [46; 46; 46]%N in I. cbn in I. intuition congruence.
Qed.
Lemma ellipsize_head c x n : (3 < n)%Z -> exists y, ellipsize (c :: x) n = c :: y.
Proof.
  intro L. unfold ellipsize. destruct (Z.of_nat (List.length (c :: x)) <=? n)%Z; [eauto|]. unfold slice_to. replace (n - 3 <? 0)%Z with false by lia.
  destruct (Z.to_nat (n - 3)) as [|k] eqn:K; [lia|]. cbn [firstn app]. eauto.
Qed.
Lemma ellipsize_one_line x n : one_line x -> one_line (ellipsize x n).
Proof. intros O I. apply ellipsize_in in I. destruct I as [I|I]; [now apply O|discriminate I]. Qed.
Lemma drop_in c x : In c (drop_spaces x) -> In c x.
Proof. induction x as [|d x IH]; cbn [drop_spaces]; [auto|]. destruct (is_space d); [intro I; right; auto|auto]. Qed.
Lemma strip_in c x : In c (strip_spaces x) -> In c x.
Proof. unfold strip_spaces. intro I. apply in_rev, drop_in, in_rev in I. now apply drop_in in I. Qed.
Lemma plain_in c d : In d (plain_c c) -> d = c \/ In d [34; 39; 45; 32]%N.
Proof.
  unfold plain_c. repeat match goal with |- context [if ?b then _ else _] => destruct b end; cbn; intuition.
Qed.
Lemma detypographize_in d x : In d (detypographize x) -> In d x \/ In d [34; 39; 45; 32]%N.
Proof. unfold detypographize. intro I. apply in_flat_map in I. destruct I as [c [I D]]. apply plain_in in D. destruct D as [->|D]; auto. Qed.
Lemma find_severe id sv : severity_of id = Some sv -> severe id sv.
Proof.
  unfold severity_of. destruct (find (fun n => N.eqb (c_id n) id) catalogue) as [n|] eqn:F; [|discriminate]. cbn [option_map]. intro H. apply find_some in F. destruct F as [I F].
  exists n; [exact I|now apply N.eqb_eq|congruence].
Qed.
(** The texts of the titles have one line. *)
Lemma titles_one_line id ps x : title_of id = Some ps -> In (Plain x) ps \/ In (Term x) ps -> one_line x.
Proof.
  unfold title_of. destruct (find (fun t => N.eqb (fst t) id) titles) as [t|] eqn:F; [|discriminate]. cbn [option_map]. intro H. assert (snd t = ps) by congruence. subst ps. clear H.
  apply find_some in F. destruct F as [I _].
  assert (C : forallb (fun t => forallb (fun p => match p with Plain x | Term x => negb (existsb (N.eqb 10) x) | Var _ => true end) (snd t)) titles = true) by (vm_compute; reflexivity).
  rewrite forallb_forall in C. specialize (C t I). rewrite forallb_forall in C. intro J. apply one_line_by, negb_true_iff. destruct J as [J|J]; exact (C _ J).
Qed.

Section Report.
Context {Ctx : Type}.
Variable resolve : Ctx -> list string -> option tree.
Variable request_of : nat -> option nat.
Variable responses_of : nat -> list nat.
Variable method_of target_of : nat -> str.
Variable status_of : nat -> Z.
Variable reason_of : nat -> option str.
Variable visible : obj -> list (N * Ctx).
Notation line := (complaint_line resolve).
Notation text_report := (text_report resolve request_of responses_of method_of target_of status_of reason_of visible).
Notation exchange_text := (exchange_text resolve request_of responses_of method_of target_of status_of reason_of visible).

(** The objects of an exchange. *)
Definition object_of (e : nat) (o : obj) : Prop := o = Exch e \/ (exists q, request_of e = Some q /\ o = Msg q) \/ (exists p, In p (responses_of e) /\ o = Msg p).
(** Nothing that is printed about an exchange contains a newline. *)
Definition plain_exchange (e : nat) : Prop :=
  (forall q, request_of e = Some q -> one_line (method_of q) /\ one_line (target_of q)) /\
  (forall p x, In p (responses_of e) -> reason_of p = Some x -> one_line x) /\
  (forall o c path t, object_of e o -> In c (visible o) -> resolve (snd c) path = Some t -> one_line (tree_text t)).
(** How the notices on an object, or on the messages of an exchange, are listed:
    [None] stands for a line that is not a notice. *)
Definition listed_as (c : N * Ctx) (l : option (severity * N)) : Prop := exists sv, l = Some (sv, fst c) /\ severe (fst c) sv.
Inductive object_lines (o : obj) : list (option (severity * N)) -> Prop :=
| object_lines_all ls : Forall2 listed_as (visible o) ls -> object_lines o ls.
Inductive response_lines : list nat -> list (option (severity * N)) -> Prop :=
| no_response : response_lines [] []
| quiet_response p ps ls : visible (Msg p) = [] -> response_lines ps ls -> response_lines (p :: ps) ls
| loud_response p ps l ls : visible (Msg p) <> [] -> object_lines (Msg p) l -> response_lines ps ls -> response_lines (p :: ps) (None :: l ++ ls).
Inductive request_lines (e : nat) : list (option (severity * N)) -> Prop :=
| no_request : request_of e = None -> request_lines e []
| a_request q l : request_of e = Some q -> object_lines (Msg q) l -> request_lines e l.
Definition silent (e : nat) : Prop := forall o, object_of e o -> visible o = [].
Inductive report_lines : list nat -> list (option (severity * N)) -> Prop :=
| no_exchange : report_lines [] []
| quiet_exchange e es ls : silent e -> report_lines es ls -> report_lines (e :: es) ls
| loud_exchange e es l1 l2 l3 ls : ~ silent e -> request_lines e l1 -> response_lines (responses_of e) l2 -> object_lines (Exch e) l3 ->
    report_lines es ls -> report_lines (e :: es) (None :: l1 ++ l2 ++ l3 ++ ls).

Definition reads (x : str) (ls : list (option (severity * N))) : Prop := forall rest, map read_line (lines (x ++ rest)) = ls ++ map read_line (lines rest).
Lemma reads_nil : reads [] [].
Proof. now intro rest. Qed.
Lemma reads_app x y a b : reads x a -> reads y b -> reads (x ++ y) (a ++ b).
Proof. intros X Y rest. rewrite <- app_assoc, X, Y. now rewrite <- app_assoc. Qed.
Lemma reads_line l : one_line l -> reads (l ++ newline) [read_line l].
Proof. intros O rest. rewrite <- app_assoc, lines_line by exact O. reflexivity. Qed.
Lemma pieces_one_line c l : (forall x, In (Plain x) l \/ In (Term x) l -> one_line x) -> (forall path t, resolve c path = Some t -> one_line (tree_text t)) ->
  forall x, pieces_text resolve c l = Some x -> one_line x.
Proof.
  intros T R. induction l as [|p l IH]; intros x H; cbn [pieces_text] in H.
  - assert (x = []) by congruence. subst x. now intro.
  - destruct (pieces_text resolve c l) as [b|]; [|destruct p as [y|y|path]; try discriminate H; destruct (option_map tree_text (resolve c path)); discriminate H].
    assert (B : one_line b) by (apply IH; [intros y [Y|Y]; apply T; [left|right]; now right|reflexivity]). clear IH.
    assert (G : forall a, one_line a -> Some (a ++ b) = Some x -> one_line x). { intros a A K. assert (x = a ++ b) by congruence. subst x. now apply one_line_app. }
    destruct p as [y|y|path].
    + apply (G (printable y)); [|exact H]. apply printable_one_line, T. left. now left.
    + apply (G (printable y)); [|exact H]. apply printable_one_line, T. right. now left.
    + destruct (resolve c path) as [t|] eqn:P; [|discriminate H]. apply (G (tree_text t)); [|exact H]. now apply R with path.
Qed.
Lemma line_reads c x : (forall path t, resolve (snd c) path = Some t -> one_line (tree_text t)) -> line c = Some x ->
  x <> [] /\ exists l, listed_as c l /\ reads x [l].
Proof.
  intros R H. unfold complaint_line in H. destruct (severity_of (fst c)) as [sv|] eqn:SV; [|discriminate H]. destruct (title_of (fst c)) as [ps|] eqn:T; [|discriminate H].
  destruct (pieces_text resolve (snd c) ps) as [t|] eqn:P; [|discriminate H]. set (title := detypographize (strip_spaces t)) in H. cbv zeta in H.
  assert (X : x = (severity_short sv ++ s " " ++ dec_str (fst c) ++ s " " ++ title) ++ newline) by (rewrite <- !app_assoc; congruence). clear H. subst x.
  assert (OT : one_line title). { intro I. apply detypographize_in in I. destruct I as [I|I]; [|cbn in I; intuition discriminate]. apply strip_in in I.
    refine (@pieces_one_line (snd c) ps _ R t P I). intros y. now apply titles_one_line with (fst c). }
  destruct (dec_str_spec (fst c)) as [NE [D V]].
  assert (O : one_line (severity_short sv ++ s " " ++ dec_str (fst c) ++ s " " ++ title)).
  { repeat apply one_line_app; try exact OT; try apply dec_one_line; apply one_line_by; [destruct sv|..]; reflexivity. }
  split; [destruct sv; discriminate|]. exists (Some (sv, fst c)). split; [exists sv; split; [reflexivity|now apply find_severe]|].
  assert (RL : read_line (severity_short sv ++ s " " ++ dec_str (fst c) ++ s " " ++ title) = Some (sv, fst c)); [|rewrite <- RL; now apply reads_line].
  change (s " ") with [32%N]. assert (Q : number_then_space 0 (dec_str (fst c) ++ [32%N] ++ title) = Some (fst c)) by (cbn [app]; rewrite number_read by exact D; now rewrite <- V at 2). cbn [app] in Q.
  destruct sv; cbn [severity_short]; unfold read_line;
    [change (s "D") with [68%N]|change (s "C") with [67%N]|change (s "E") with [69%N]]; cbn [app]; rewrite N.eqb_refl; rewrite Q; reflexivity.
Qed.
Lemma lines_read cs : (forall c path t, In c cs -> resolve (snd c) path = Some t -> one_line (tree_text t)) -> forall x, write_all line cs = Some x ->
  (x = [] <-> cs = []) /\ exists ls, Forall2 listed_as cs ls /\ reads x ls.
Proof.
  induction cs as [|c cs IH]; intros R x H; cbn [write_all] in H.
  - assert (x = []) by congruence. subst x. split; [tauto|]. exists []. split; [constructor|apply reads_nil].
  - destruct (line c) as [a|] eqn:L; [|discriminate H]. destruct (write_all line cs) as [b|] eqn:W; [|discriminate H]. cbn [then_write] in H. assert (x = a ++ b) by congruence. subst x. clear H.
    apply line_reads in L; [|intros path t; apply R; now left]. destruct L as [NE [l [A B]]].
    destruct (IH ltac:(intros d path t D; apply R; now right) b eq_refl) as [_ [ls [C D]]]. split; [split; [|discriminate]; intro K; apply app_eq_nil in K; destruct (NE (proj1 K))|].
    exists (l :: ls). split; [now constructor|]. exact (reads_app B D).
Qed.
Lemma marker_reads c x n : (3 < n)%Z -> one_line (c :: x) -> ~ In c [67; 68; 69]%N -> reads (ellipsize (c :: x) n ++ newline) [None].
Proof.
  intros L O NC. assert (R : read_line (ellipsize (c :: x) n) = None); [|rewrite <- R; now apply reads_line, ellipsize_one_line].
  destruct (ellipsize_head c x L) as [y E]. rewrite E. destruct y as [|d y]; [reflexivity|]. cbn [read_line]. cbn [In] in NC.
  destruct (d =? 32)%N; [|reflexivity]. destruct (N.eqb_spec c 69); [subst c; tauto|]. destruct (N.eqb_spec c 67); [subst c; tauto|]. destruct (N.eqb_spec c 68); [subst c; tauto|]. reflexivity.
Qed.
Lemma known_title_one_line z t : known_title z = Some t -> one_line t.
Proof.
  unfold known_title. destruct (find (fun t => Z.eqb (fst t) z) status_titles) as [p|] eqn:F; [|discriminate]. cbn [option_map]. intro H. assert (snd p = t) by congruence. subst t.
  apply find_some in F. destruct F as [I _]. apply one_line_by, negb_true_iff.
  assert (C : forallb (fun p => negb (existsb (N.eqb 10) (snd p))) status_titles = true) by (vm_compute; reflexivity). rewrite forallb_forall in C. exact (C p I).
Qed.
Lemma reason_one_line z r : (forall x, r = Some x -> one_line x) -> one_line (reason_phrase z r).
Proof.
  intro H. unfold reason_phrase. assert (G : one_line (match known_title z with Some (c :: t) => c :: t | _ => s "(unknown)" end)).
  { destruct (known_title z) as [[|c t]|] eqn:K; try (apply one_line_by; reflexivity). eapply known_title_one_line, K. }
  destruct r as [[|c x]|]; [exact G|now apply H|exact G].
Qed.
Lemma response_marker_reads p : (forall x, reason_of p = Some x -> one_line x) -> reads (response_marker status_of reason_of p) [None].
Proof.
  intro H. unfold response_marker. change (s "------------ response: ") with (45%N :: s "----------- response: "). cbn [app].
  apply marker_reads; [lia| |cbn; intuition discriminate]. intro I. destruct I as [I|I]; [discriminate I|]. revert I.
  apply one_line_app; [apply one_line_by; reflexivity|]. apply one_line_app; [apply show_one_line|]. apply one_line_app; [apply one_line_by; reflexivity|]. now apply printable_one_line, reason_one_line.
Qed.
Lemma exchange_marker_reads e : plain_exchange e -> reads (exchange_marker request_of responses_of method_of target_of e) [None].
Proof.
  intros [H _]. unfold exchange_marker. destruct (request_of e) as [q|].
  - destruct (H q eq_refl) as [M T]. change (s "------------ request: ") with (45%N :: s "----------- request: "). cbn [app].
    apply marker_reads; [lia| |cbn; intuition discriminate]. intro I. destruct I as [I|I]; [discriminate I|]. revert I.
    apply one_line_app; [apply one_line_by; reflexivity|]. apply one_line_app; [now apply printable_one_line|]. apply one_line_app; [apply one_line_by; reflexivity|]. now apply printable_one_line.
  - assert (G : forall x, existsb (N.eqb 10) (45%N :: x) = false -> reads (ellipsize (45%N :: x) 79 ++ newline) [None]).
    { intros x X. apply marker_reads; [lia|now apply one_line_by|cbn; intuition discriminate]. }
    destruct (responses_of e); [apply (G (s "-----------"))|apply (G (s "----------- unknown request"))]; reflexivity.
Qed.
Lemma marked_reads beginning a ls x : reads beginning [None] -> reads a ls -> write_if_any beginning (Some a) = Some x ->
  (a = [] /\ x = []) \/ (a <> [] /\ x <> [] /\ reads x (None :: ls)).
Proof.
  intros B A H. destruct a as [|c a]; cbn [write_if_any] in H; [left; split; congruence|]. right. assert (x = beginning ++ c :: a) by congruence. subst x. split; [discriminate|]. split; [destruct beginning; discriminate|]. exact (reads_app B A).
Qed.
Lemma responses_read e ps : plain_exchange e -> (forall p, In p ps -> In p (responses_of e)) ->
  forall x, write_all (fun p => write_if_any (response_marker status_of reason_of p) (write_all line (visible (Msg p)))) ps = Some x ->
  (x = [] <-> forall p, In p ps -> visible (Msg p) = []) /\ exists ls, response_lines ps ls /\ reads x ls.
Proof.
  intros [_ [R V]]. induction ps as [|p ps IH]; intros I x H; cbn [write_all] in H.
  - assert (x = []) by congruence. subst x. split; [split; [intros _ p []|reflexivity]|]. exists []. split; [constructor|apply reads_nil].
  - destruct (write_all line (visible (Msg p))) as [a|] eqn:W; [|discriminate H].
    assert (IP : In p (responses_of e)) by (apply I; now left).
    apply lines_read in W; [|intros c path t C; apply V with (Msg p); [right; right; eauto|exact C]]. destruct W as [N [ls [F RA]]].
    destruct (write_if_any (response_marker status_of reason_of p) (Some a)) as [m|] eqn:M; [|discriminate H].
    apply (marked_reads (@response_marker_reads p (fun x => R p x IP))) with (1 := RA) in M.
    destruct (write_all _ ps) as [b|] eqn:WB; [|discriminate H]. cbn [then_write] in H. assert (x = m ++ b) by congruence. subst x. clear H.
    destruct (IH ltac:(intros; apply I; now right) b eq_refl) as [NB [lb [LB RB]]]. destruct M as [[A0 M0]|[A0 [M0 RM]]].
    + assert (V0 : visible (Msg p) = []) by now apply N. subst m. cbn [app]. split.
      * rewrite NB. split; [intros Q q [<-|J]; [exact V0|now apply Q]|intros Q q J; apply Q; now right].
      * exists lb. split; [now apply quiet_response|exact RB].
    + assert (V0 : visible (Msg p) <> []) by (intro K; apply N in K; now apply A0). split.
      * split; [intro K; apply app_eq_nil in K; destruct (M0 (proj1 K))|intro K; destruct (V0 (K p (or_introl eq_refl)))].
      * exists (None :: ls ++ lb). split; [apply loud_response; [exact V0|now constructor|exact LB]|]. exact (reads_app RM RB).
Qed.
Lemma exchange_reads e x : plain_exchange e -> exchange_text e = Some x ->
  (silent e /\ x = []) \/ (~ silent e /\ exists l1 l2 l3, request_lines e l1 /\ response_lines (responses_of e) l2 /\ object_lines (Exch e) l3 /\ reads x (None :: l1 ++ l2 ++ l3)).
Proof.
  intros P H. unfold exchange_text in H. pose proof P as [_ [_ V]].
  assert (A : exists a la, (match request_of e with Some q => write_all line (visible (Msg q)) | None => Some [] end) = Some a /\ (a = [] <-> forall q, request_of e = Some q -> visible (Msg q) = []) /\
    request_lines e la /\ reads a la \/ (match request_of e with Some q => write_all line (visible (Msg q)) | None => Some [] end) = None).
  { destruct (request_of e) as [q|] eqn:Q.
    - destruct (write_all line (visible (Msg q))) as [a|] eqn:W; [|exists [], []; now right]. apply lines_read in W; [|intros c path t C; apply V with (Msg q); [right; left; eauto|exact C]].
      destruct W as [N [la [F R]]]. exists a, la. left. split; [reflexivity|]. split; [|split; [|exact R]].
      + rewrite N. split; [intros K q' Q'; congruence|intro K; now apply K].
      + apply a_request with q; [exact Q|now constructor].
    - exists [], []. left. split; [reflexivity|]. split; [split; [intros _ q Q'; discriminate Q'|reflexivity]|]. split; [now apply no_request|apply reads_nil]. }
  destruct A as [a [la [[WA [NA [LA RA]]]|WA]]]; rewrite WA in H; [|discriminate H].
  destruct (write_all (fun p => write_if_any (response_marker status_of reason_of p) (write_all line (visible (Msg p)))) (responses_of e)) as [b|] eqn:WB; [|discriminate H].
  apply responses_read with (1 := P) in WB; [|auto]. destruct WB as [NB [lb [LB RB]]].
  destruct (write_all line (visible (Exch e))) as [d|] eqn:WD; [|discriminate H].
  apply lines_read in WD; [|intros c path t C; apply V with (Exch e); [now left|exact C]]. destruct WD as [ND [ld [LD RD]]].
  cbn [then_write] in H. apply (marked_reads (exchange_marker_reads P)) with (1 := reads_app RA (reads_app RB RD)) in H.
  assert (Q : a ++ b ++ d = [] <-> silent e).
  { split.
    - intros K o [->|[[q [Q ->]]|[p [I ->]]]]; apply app_eq_nil in K; destruct K as [K1 K]; apply app_eq_nil in K; destruct K as [K2 K3]; [now apply ND|now apply (proj1 NA K1)|now apply (proj1 NB K2)].
    - intro S. rewrite (proj2 NA), (proj2 NB), (proj2 ND); [reflexivity|apply S; now left|intros p I; apply S; right; right; eauto|intros q J; apply S; right; left; eauto]. }
  destruct H as [[H1 H2]|[H1 [H2 R]]]; [left; split; [now apply Q|exact H2]|]. right. split; [intro S; apply H1; now apply Q|]. exists la, lb, ld. repeat split; auto.
Qed.
Lemma report_reads es : (forall e, In e es -> plain_exchange e) -> snd (text_report es) = true -> exists ls, report_lines es ls /\ reads (fst (text_report es)) ls.
Proof.
  induction es as [|e es IH]; intros P D; cbn [TextReport.text_report] in *; [exists []; split; [constructor|apply reads_nil]|].
  destruct (exchange_text e) as [x|] eqn:X; [|discriminate D]. destruct (text_report es) as [out done]. cbn [fst snd] in *.
  destruct IH as [ls [L R]]; [intros; apply P; now right|exact D|]. apply exchange_reads in X; [|apply P; now left]. destruct X as [[S ->]|[S [l1 [l2 [l3 [A [B [C RX]]]]]]]].
  - exists ls. split; [now apply quiet_exchange|exact R].
  - exists (None :: l1 ++ l2 ++ l3 ++ ls). split; [now apply loud_exchange|]. pose proof (reads_app RX R) as Q. cbn [app] in Q. rewrite <- !app_assoc in Q. exact Q.
Qed.

(** C44.  Reading the lines of the report, one finds a line that is not a notice,
    for each exchange that has a visible notice, in order; then a line for each
    visible notice on its request, in order, with the letter of its severity and
    its id; then, for each response that has visible notices, a line that is not a
    notice and those notices; then those on the exchange itself; and nothing
    else.  This needs that no text from the message that is printed contains a
    newline. *)
Theorem C44_lines : forall es, (forall e, In e es -> plain_exchange e) -> snd (text_report es) = true ->
  report_lines es (map read_line (lines (fst (text_report es)))).
Proof.
  intros es P D. destruct (report_reads P D) as [ls [L R]]. specialize (R []). rewrite app_nil_r in R. rewrite R. cbn [lines lines_from map]. unfold lines. cbn [lines_from map]. now rewrite app_nil_r.
Qed.

(** C44.  The report is written to the end if everything that notices refer to can
    be found. *)
Lemma write_all_done {A} (f : A -> option str) l : (forall a, In a l -> exists x, f a = Some x) -> exists x, write_all f l = Some x.
Proof.
  induction l as [|a l IH]; intro H; cbn [write_all]; [eauto|]. destruct (H a (or_introl eq_refl)) as [x ->]. destruct IH as [y ->]; [intros; apply H; now right|]. cbn [then_write]. eauto.
Qed.
Lemma if_any_done b x : exists y, write_if_any b (Some x) = Some y.
Proof. destruct x; cbn [write_if_any]; eauto. Qed.
Theorem C44_finished : forall es,
  (forall e o c, In e es -> object_of e o -> In c (visible o) -> exists x, line c = Some x) -> snd (text_report es) = true.
Proof.
  induction es as [|e es IH]; intro H; cbn [TextReport.text_report]; [reflexivity|].
  assert (X : exists x, exchange_text e = Some x).
  { assert (L : forall o, object_of e o -> exists x, write_all line (visible o) = Some x) by (intros o O; apply write_all_done; intros c C; now apply H with e o; [left| |]).
    unfold exchange_text. assert (A : exists a, (match request_of e with Some q => write_all line (visible (Msg q)) | None => Some [] end) = Some a).
    { destruct (request_of e) as [q|] eqn:Q; [|eauto]. apply L. right. left. eauto. }
    destruct A as [a ->].
    assert (B : exists b, write_all (fun p => write_if_any (response_marker status_of reason_of p) (write_all line (visible (Msg p)))) (responses_of e) = Some b).
    { apply write_all_done. intros p I. destruct (L (Msg p)) as [x ->]; [right; right; eauto|]. apply if_any_done. }
    destruct B as [b ->]. destruct (L (Exch e)) as [d ->]; [now left|]. apply if_any_done. }
  destruct X as [x ->]. assert (D : snd (text_report es) = true) by (apply IH; intros e' o c I; apply H; now right). destruct (text_report es). exact D.
Qed.

(** *** Characters *)
Definition clean (x : str) : Prop := forall c, In c x -> unprintable c = false.
Lemma clean_app a b : clean a -> clean b -> clean (a ++ b).
Proof. intros A B c I. apply in_app_or in I. destruct I; [now apply A|now apply B]. Qed.
Lemma clean_by x : existsb unprintable x = false -> clean x.
Proof. intros H c I. destruct (unprintable c) eqn:U; [|reflexivity]. assert (T : existsb unprintable x = true); [|congruence]. apply existsb_exists. eauto. Qed.
Lemma printable_clean x : clean (printable x).
Proof. intros c I. destruct (C45_printable x) as [_ [_ [P _]]]. apply not_true_iff_false. rewrite unprintable_spec. now apply P. Qed.
Lemma dec_clean n : clean (dec_str n).
Proof.
  intros c I. destruct (dec_str_spec n) as [_ [F _]]. rewrite Forall_forall in F. apply F in I. unfold is_dec in I. apply not_true_iff_false. rewrite unprintable_spec.
  intros [a [b [J K]]]. cbn in J. repeat (destruct J as [J|J]; [injection J as <- <-; lia|]). exact J.
Qed.
Lemma show_clean z : clean (show z).
Proof. destruct z; cbn [show]; [apply clean_by; reflexivity|apply dec_clean|apply clean_app; [apply clean_by; reflexivity|apply dec_clean]]. Qed.
Lemma ellipsize_clean x n : clean x -> clean (ellipsize x n).
Proof. intros C c I. apply ellipsize_in in I. destruct I as [I|I]; [now apply C|subst c; reflexivity]. Qed.
Lemma tree_clean t : clean (tree_text t).
Proof.
  revert t. fix IH 1. intros [x|l]; cbn [tree_text]; [apply printable_clean|]. induction l as [|t l IHl]; cbn [flat_map]; [now intro|]. apply clean_app; [apply IH|exact IHl].
Qed.
Lemma pieces_clean c l : forall x, pieces_text resolve c l = Some x -> clean x.
Proof.
  induction l as [|p l IH]; intros x H; cbn [pieces_text] in H; [assert (x = []) by congruence; subst x; now intro|].
  destruct (match p with Plain y | Term y => Some (printable y) | Var path => option_map tree_text (resolve c path) end) as [a|] eqn:A; [|discriminate H].
  destruct (pieces_text resolve c l) as [b|]; [|discriminate H]. assert (x = a ++ b) by congruence. subst x. apply clean_app; [|now apply IH].
  destruct p as [y|y|path]; [assert (a = printable y) by congruence; subst a; apply printable_clean..|]. destruct (resolve c path) as [t|]; [|discriminate A]. assert (a = tree_text t) by (cbn in A; congruence). subst a. apply tree_clean.
Qed.
Lemma newline_clean : clean newline.
Proof. apply clean_by. reflexivity. Qed.
Lemma line_clean c x : line c = Some x -> clean x.
Proof.
  unfold complaint_line. destruct (severity_of (fst c)) as [sv|]; [|discriminate]. destruct (title_of (fst c)) as [ps|]; [|discriminate]. destruct (pieces_text resolve (snd c) ps) as [t|] eqn:P; [|discriminate].
  intro H. apply pieces_clean in P. assert (X : x = severity_short sv ++ s " " ++ dec_str (fst c) ++ s " " ++ detypographize (strip_spaces t) ++ newline) by congruence. subst x.
  repeat apply clean_app; try apply dec_clean; try apply newline_clean; try (apply clean_by; destruct sv; reflexivity).
  intros d I. apply detypographize_in in I. destruct I as [I|I]; [apply P; now apply strip_in|]. cbn in I. destruct I as [<-|[<-|[<-|[<-|[]]]]]; reflexivity.
Qed.
Lemma write_all_clean {A} (f : A -> option str) l : (forall a x, f a = Some x -> clean x) -> forall x, write_all f l = Some x -> clean x.
Proof.
  intro F. induction l as [|a l IH]; intros x H; cbn [write_all] in H; [assert (x = []) by congruence; subst x; now intro|].
  destruct (f a) as [y|] eqn:Y; [|discriminate H]. destruct (write_all f l) as [z|]; [|discriminate H]. cbn [then_write] in H. assert (x = y ++ z) by congruence. subst x. apply clean_app; [eapply F, Y|now apply IH].
Qed.
Lemma if_any_clean b y x : clean b -> clean y -> write_if_any b (Some y) = Some x -> clean x.
Proof. intros B Y H. destruct y as [|c y]; cbn [write_if_any] in H; [assert (x = []) by congruence; subst x; now intro|]. assert (x = b ++ c :: y) by congruence. subst x. now apply clean_app. Qed.
Lemma exchange_clean e x : exchange_text e = Some x -> clean x.
Proof.
  unfold exchange_text. destruct (match request_of e with Some q => write_all line (visible (Msg q)) | None => Some [] end) as [a|] eqn:A; [|discriminate].
  destruct (write_all (fun p => write_if_any (response_marker status_of reason_of p) (write_all line (visible (Msg p)))) (responses_of e)) as [b|] eqn:B; [|discriminate].
  destruct (write_all line (visible (Exch e))) as [d|] eqn:D; [|discriminate]. cbn [then_write]. apply if_any_clean.
  - unfold exchange_marker. apply clean_app; [|apply newline_clean]. apply ellipsize_clean. destruct (request_of e) as [q|].
    + repeat apply clean_app; try apply printable_clean; apply clean_by; reflexivity.
    + destruct (responses_of e); apply clean_by; reflexivity.
  - apply clean_app; [|apply clean_app].
    + destruct (request_of e); [|assert (a = []) by congruence; subst a; now intro]. eapply write_all_clean; [|exact A]. intros; eapply line_clean; eauto.
    + eapply write_all_clean; [|exact B]. intros p y Y. cbv beta in Y. destruct (write_all line (visible (Msg p))) as [z|] eqn:Z ; [|discriminate Y]. refine (if_any_clean _ _ Y).
      * unfold response_marker. apply clean_app; [|apply newline_clean]. apply ellipsize_clean. repeat apply clean_app; try apply printable_clean; try apply show_clean; apply clean_by; reflexivity.
      * eapply write_all_clean; [|exact Z]. intros; eapply line_clean; eauto.
    + eapply write_all_clean; [|exact D]. intros; eapply line_clean; eauto.
Qed.

(** C44.  Whatever the exchanges contain, no forbidden code point is written; so no
    surrogate is, and encoding as UTF-8 does not fail. *)
Theorem C44_characters : forall es c, In c (fst (text_report es)) -> ~ forbidden c.
Proof.
  intros es c I. rewrite <- unprintable_spec. apply not_true_iff_false. revert c I. change (clean (fst (text_report es))).
  induction es as [|e es IH]; cbn [TextReport.text_report]; [now intro|]. destruct (exchange_text e) as [x|] eqn:X; [|now intro]. destruct (text_report es) as [out done]. cbn [fst] in *.
  apply clean_app; [eapply exchange_clean, X|exact IH].
Qed.
End Report.
Print Assumptions C44_lines.
Print Assumptions C44_finished.
Print Assumptions C44_characters.

(** ** Notices of [check_exchange] *)
Definition path_eqb (a b : list string) : bool := if list_eq_dec string_dec a b then true else false.
Lemma title_refs n : In n catalogue -> exists ps, title_of (c_id n) = Some ps /\ forall path, In (Var path) ps -> In path (c_refs n).
Proof.
  assert (C : forallb (fun n => match title_of (c_id n) with
                                | Some ps => forallb (fun p => match p with Var path => existsb (path_eqb path) (c_refs n) | _ => true end) ps
                                | None => false end) catalogue = true) by (vm_compute; reflexivity).
  intro I. rewrite forallb_forall in C. specialize (C n I). destruct (title_of (c_id n)) as [ps|]; [|discriminate C]. exists ps. split; [reflexivity|].
  intros path J. rewrite forallb_forall in C. specialize (C _ J). cbv beta iota in C. apply existsb_exists in C. destruct C as [path' [K Q]]. unfold path_eqb in Q. destruct (list_eq_dec string_dec path path') as [->|]; [exact K|discriminate Q].
Qed.
Lemma pieces_found {Ctx} (resolve : Ctx -> list string -> option tree) c l : (forall path, In (Var path) l -> exists t, resolve c path = Some t) -> exists x, pieces_text resolve c l = Some x.
Proof.
  induction l as [|p l IH]; intro H; cbn [pieces_text]; [eauto|]. destruct IH as [b ->]; [intros; apply H; now right|]. destruct p as [y|y|path]; [eauto..|].
  destruct (H path (or_introl eq_refl)) as [t ->]. cbn [option_map]. eauto.
Qed.
(** C44.  Each notice that [check_exchange] reports can be written as a line,
    whatever the messages contain; so by [C44_finished] the report of checked
    exchanges is written to the end. *)
Theorem C44_checked : forall E x other w id ctx, parses_http (e_read E) -> P_Exchange.said E x w id ctx ->
  exists l, complaint_line (resolve_text E x other) (id, (w, ctx)) = Some l.
Proof.
  intros E x other w id ctx http H. destruct (C54_shown http H) as [_ [n [I [<- [R _]]]]]. unfold complaint_line. cbn [fst snd].
  assert (SV : exists sv, severity_of (c_id n) = Some sv).
  { unfold severity_of. destruct (find (fun n0 => (c_id n0 =? c_id n)%N) catalogue) as [n'|] eqn:F; [cbn [option_map]; eauto|]. exfalso. pose proof (find_none _ _ F n I) as Q. cbv beta in Q. rewrite N.eqb_refl in Q. discriminate Q. }
  destruct SV as [sv ->]. destruct (title_refs I) as [ps [-> V]].
  destruct (@pieces_found _ (resolve_text E x other) (w, ctx) ps) as [t ->]; [|eauto].
  intros path J. destruct (R path (V path J)) as [found F]. unfold resolve_text. cbn [fst snd]. rewrite F. cbn [option_map]. eauto.
Qed.
Print Assumptions C44_checked.

(** ** Newlines *)

(** A concrete case: a request with a notice, and a response with none. *)
Definition simple_method (_ : nat) : str := s "POST".
Definition simple_target (_ : nat) : str := s "/foo".
Definition simple_resolve (_ : unit) (_ : list string) : option tree := Some (Leaf (s "Age")).
Definition simple_visible (o : obj) : list (N * unit) := match o with Msg 1 => [(1000%N, tt); (1025%N, tt)] | _ => [] end.
Definition simple_report (target : nat -> str) : str * bool :=
  text_report simple_resolve (fun _ => Some 1) (fun _ => [2]) simple_method target (fun _ => 200%Z) (fun _ => None) simple_visible [0].
Example C44_example :
  (forall e, In e [0] -> plain_exchange simple_resolve (fun _ => Some 1) (fun _ => [2]) simple_method simple_target (fun _ => None) simple_visible e) /\
  snd (simple_report simple_target) = true /\
  map read_line (lines (fst (simple_report simple_target))) = [None; Some (Error, 1000%N); Some (Comment, 1025%N)].
Proof.
  split; [|split; vm_compute; reflexivity]. intros e _. split; [|split].
  - intros q _. split; apply one_line_by; reflexivity.
  - discriminate.
  - intros o c path t _ _ R. unfold simple_resolve in R. assert (t = Leaf (s "Age")) by congruence. subst t. apply one_line_by. vm_compute. reflexivity.
Qed.
(** C44, without the condition on newlines, is false: a request target with a
    newline in it (which a stream cannot contain, but a HAR file or a caller can
    provide) can make the report list a notice that was never reported. *)
Theorem C44_newline_refuted : exists target, snd (simple_report target) = true /\
  In (Some (Error, 1277%N)) (map read_line (lines (fst (simple_report target)))) /\
  forall o c, In c (simple_visible o) -> fst c <> 1277%N.
Proof.
  exists (fun _ => s "/" ++ newline ++ s "E 1277 forged"). split; [vm_compute; reflexivity|]. split; [vm_compute; auto|].
  intros [[|[|n]]|n] c I; cbn in I; try contradiction. destruct I as [<-|[<-|[]]]; discriminate.
Qed.
Print Assumptions C44_newline_refuted.
