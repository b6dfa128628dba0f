(** Proofs for C84 and C111: which notices the framing can report, and with which
    kind of context. *)
From Coq Require Import String.
From Verif Require Import Base Stream Framing.
Open Scope nat_scope.
Open Scope list_scope.
Unset Strict Implicit.
Local Open Scope string_scope.
Local Open Scope list_scope.

Definition heading_ids : list N := [1016; 1224]%N.
Definition framing_ids : list N := [1001; 1002; 1003; 1004; 1005; 1011; 1012; 1016; 1027; 1224; 1298]%N.
Definition pends (st : stream) : Prop := Forall (fun i => In i heading_ids) (pending st).
Inductive form := Bare | Placed | Faulty | Sized | Coded.
Definition form_of (c : ctx) : form :=
  match c with CtxNone => Bare | CtxPlace _ => Placed | CtxError _ => Faulty | CtxSize _ _ => Sized | CtxCoding _ => Coded end.
Definition allowed (response : bool) : list (N * form) :=
  [(1002, Bare); (1003, Coded); (1004, Faulty); (1005, Faulty); (1016, Placed); (1027, Coded); (1224, Placed); (1298, Sized)]%N ++
  if response then [(1011, Bare); (1012, Bare)]%N else [(1001, Bare)]%N.
Definition noted_as (response : bool) (m : message) : Prop := Forall (fun n => In (n_id n, form_of (n_ctx n)) (allowed response)) (notes m).
Definition boxed (b : box) : Prop :=
  match b with BoxError id _ => id = 1006%N \/ id = 1009%N | BoxOffset id _ => id = 1007%N \/ id = 1010%N | BoxPlain id => id = 1008%N end.
Lemma allowed_ids response n : In (n_id n, form_of (n_ctx n)) (allowed response) -> In (n_id n) framing_ids.
Proof.
  intro H. apply (in_map fst) in H. cbn [fst] in H. assert (A : forallb (fun i => existsb (N.eqb i) framing_ids) (map fst (allowed response)) = true) by (destruct response; vm_compute; reflexivity).
  rewrite forallb_forall in A. specialize (A _ H). apply existsb_exists in A. destruct A as [i [I A]]. apply N.eqb_eq in A. now rewrite A.
Qed.
Definition keeps {A} (c : M A) (Q : A -> Prop) : Prop :=
  forall st, pends st -> pends (snd (c st)) /\ match fst (c st) with Val a => Q a | _ => True end.
Lemma k_ret {A} (a : A) (Q : A -> Prop) : Q a -> keeps (ret a) Q.
Proof. intros H st P. split; [exact P|exact H]. Qed.
Lemma k_bind {A B} (c : M A) (f : A -> M B) P Q : keeps c P -> (forall a, P a -> keeps (f a) Q) -> keeps (bind c f) Q.
Proof.
  intros C F st I. destruct (C st I) as [I' H]. unfold bind. destruct (c st) as [[a|e|z| |] st']; cbn [fst snd] in *; auto. now apply F.
Qed.
Lemma k_bind' {A B} (c : M A) (f : A -> M B) Q : keeps c (fun _ => True) -> (forall a, keeps (f a) Q) -> keeps (bind c f) Q.
Proof. intros C F. apply (k_bind C). auto. Qed.
Lemma k_tell (Q : N -> Prop) : (forall p, Q p) -> keeps tell Q. Proof. intros H st I. split; [exact I|apply H]. Qed.
Lemma k_peek (Q : option N -> Prop) : (forall p, Q p) -> keeps peek Q. Proof. intros H st I. split; [exact I|apply H]. Qed.
Lemma k_raise {A} p e (Q : A -> Prop) : keeps (raise_error p e) Q. Proof. intros st I. split; [exact I|exact Logic.I]. Qed.
Lemma k_insane {A} (a : A) (Q : A -> Prop) : Q a -> keeps (fun st => (Val a, set_sane false st)) Q. Proof. intros H st I. split; [exact I|exact H]. Qed.
Lemma k_fuel {A} (Q : A -> Prop) : keeps (fun st => (Fuel, st)) Q. Proof. intros st I. split; [exact I|exact Logic.I]. Qed.
Lemma pends_add i st : In i heading_ids -> pends st -> pends (add_pending i st).
Proof. intros H P. unfold pends, add_pending. cbn [pending]. apply Forall_app. auto. Qed.
Lemma k_complain : keeps (complain 1016) (fun _ => True).
Proof. intros st I. split; [apply pends_add; [now left|exact I]|exact Logic.I]. Qed.
Lemma k_read n : keeps (read n) (fun _ => True).
Proof.
  intros st I. unfold read. destruct (_ <? _)%Z; [split; [exact I|exact Logic.I]|]. destruct (if (_ =? _)%Z then _ else _) as [r rest']. destruct (_ && _); (split; [exact I|exact Logic.I]).
Qed.
Lemma k_readline : keeps readline (fun _ => True).
Proof.
  intros st I. unfold readline. destruct (take_line _ _) as [r rest']. assert (A : pends (after_read st (lenN r) rest')) by exact I.
  assert (F : pends (snd (if (max_line_length <=? lenN r)%N then @raise_error str (pos st) ExpLineLimit (after_read st (lenN r) rest') else raise_error (pos st) ExpLine (after_read st (lenN r) rest'))) /\
    match fst (if (max_line_length <=? lenN r)%N then @raise_error str (pos st) ExpLineLimit (after_read st (lenN r) rest') else raise_error (pos st) ExpLine (after_read st (lenN r) rest')) with Val _ => True | _ => True end).
  { destruct (_ <=? _)%N; (split; [exact A|exact Logic.I]). }
  destruct (rev r) as [|c line]; [exact F|]. destruct (c =? 10)%N; [|exact F]. destruct line as [|c2 line']; [split; [apply pends_add; [right; now left|exact A]|exact Logic.I]|].
  destruct (c2 =? 13)%N; (split; [|exact Logic.I]); [exact A|]. apply pends_add; [right; now left|exact A].
Qed.
Lemma k_lineend : keeps readlineend (fun _ => True).
Proof. unfold readlineend. apply k_bind'; [now apply k_tell|]. intro p. apply k_bind'; [apply k_readline|]. intro l. destruct (is_nil l); [now apply k_ret|apply k_raise]. Qed.
Lemma k_fold fuel : forall vs, keeps (fold_lines fuel vs) (fun _ => True).
Proof.
  induction fuel as [|fuel IH]; intro vs; cbn [fold_lines]; [apply k_fuel|]. apply k_bind'; [now apply k_peek|]. intros [c|]; [|now apply k_ret].
  destruct (is_blank c); [|now apply k_ret]. apply k_bind'; [apply k_complain|]. intro. apply k_bind'; [apply k_readline|]. intro. apply IH.
Qed.
Lemma k_fields fuel : forall acc, keeps (header_fields fuel acc) (fun _ => True).
Proof.
  induction fuel as [|fuel IH]; intro acc; cbn [header_fields]; [apply k_fuel|]. apply k_bind'; [now apply k_peek|]. intros [c|]; [|now apply k_ret].
  destruct (_ || _); [now apply k_ret|]. apply k_bind'; [now apply k_tell|]. intro p. apply k_bind'; [apply k_readline|]. intro l. destruct (partition_at 58 l) as [[name v]|]; [|apply k_raise].
  apply k_bind'; [apply k_fold|]. intro. apply IH.
Qed.
Lemma k_header : keeps parse_header_fields (fun _ => True).
Proof. intros st I. apply (k_fields _ [] I). Qed.
Section Either.
Variable response : bool.
Notation noted := (noted_as response).
Ltac listed := cbn [n_id n_ctx form_of]; destruct response; vm_compute; tauto.
Lemma noted_add n m : In (n_id n, form_of (n_ctx n)) (allowed response) -> noted m -> noted (msg_complain n m).
Proof. intros H N. unfold noted_as, msg_complain, add_note. cbn [notes]. destruct (existsb _ _); [exact N|]. apply Forall_app. auto. Qed.
Lemma k_dump p m : noted m -> keeps (dump_complaints p m) noted.
Proof.
  intros N st I. unfold dump_complaints. split; [constructor|]. cbn [fst]. unfold pends in I. revert m N. induction I as [|i l H I IH]; intros m N; [exact N|]. cbn [fold_left]. apply IH.
  apply noted_add; [|exact N]. destruct H as [<-|[<-|[]]]; listed.
Qed.
Lemma k_length o m : noted m -> keeps (process_content_length o m) noted.
Proof.
  intro N. destruct o as [n|]; cbn [process_content_length]; [|now apply k_insane]. destruct (_ <? _)%Z; [apply k_insane; apply noted_add; [listed|exact N]|].
  intros st I. pose proof (k_read (Z.of_N n) I) as [K _]. destruct (read (Z.of_N n) st) as [[b|e|z| |] st']; cbn [fst snd] in *; (split; [exact K|]); try exact Logic.I; [exact N|]. apply noted_add; [listed|exact N].
Qed.
Lemma k_chunk n : keeps (parse_chunk n) (fun _ => True).
Proof.
  unfold parse_chunk. apply k_bind'; [now apply k_tell|]. intro p. apply k_bind'; [apply k_readline|]. intro l. destruct (py_int16 _) as [z|]; [|apply k_raise].
  destruct (_ =? _)%Z; [now apply k_ret|]. destruct (_ <? _)%Z; [intros st I; split; [exact I|exact Logic.I]|]. apply k_bind'; [apply k_read|]. intro d. apply k_bind'; [apply k_lineend|]. intros _. now apply k_ret.
Qed.
Lemma k_chunks fuel : forall acc, keeps (chunks_loop fuel acc) (fun _ => True).
Proof. induction fuel as [|fuel IH]; intro acc; cbn [chunks_loop]; [apply k_fuel|]. apply k_bind'; [apply k_chunk|]. intros [d|]; [apply IH|now apply k_ret]. Qed.
Lemma k_framing : keeps chunked_framing (fun _ => True).
Proof.
  unfold chunked_framing. apply k_bind'; [intros st I; apply (k_chunks _ [] I)|]. intro d. apply k_bind'; [apply k_header|]. intro t. apply k_bind'; [apply k_lineend|]. intros _. now apply k_ret.
Qed.
Lemma k_chunked m : noted m -> keeps (parse_chunked m) noted.
Proof.
  intros N st I. unfold parse_chunked. pose proof (k_framing I) as [K _]. destruct (chunked_framing st) as [[[d t]|e|z| |] st']; cbn [fst snd] in *; try (split; [exact K|]; try exact Logic.I).
  - pose proof (k_dump ChunkedFraming N K) as [K' N']. destruct (dump_complaints ChunkedFraming m st') as [[m'|e|z| |] st'']; cbn [fst snd] in *; (split; [exact K'|]); try exact Logic.I. exact N'.
  - apply (@noted_add (mkNote 1005 (CtxError e)) m); [listed|exact N].
  - apply (@noted_add (mkNote 1298 (CtxSize ChunkedFraming z)) m); [listed|exact N].
Qed.
Lemma noted_decode E c m : noted m -> noted (decode_transfer_coding E c m).
Proof.
  intro N. unfold decode_transfer_coding. destruct (coding_is "chunked" c); [apply (@noted_add (mkNote 1002 CtxNone) m); [listed|exact N]|]. destruct (_ || _).
  - destruct (mbody m); [|exact N]. destruct (if coding_is _ _ then _ else _); [exact N|]. apply (@noted_add (mkNote 1027 _) m); [listed|exact N].
  - destruct c as [x|]; [|exact N]. apply (@noted_add (mkNote 1003 (CtxCoding x)) m); [listed|exact N].
Qed.
Lemma noted_decodes E rcs : forall m, noted m -> noted (decode_codings E rcs m).
Proof. induction rcs as [|c rcs IH]; intros m N; cbn [decode_codings]; [exact N|]. destruct (body_okay _); [apply IH; now apply noted_decode|exact N]. Qed.
End Either.
Ltac listed := cbn [n_id n_ctx form_of]; vm_compute; tauto.
Lemma k_request_heading : keeps parse_request_heading (fun r => noted_as false (rq_msg r)).
Proof.
  unfold parse_request_heading. apply k_bind'; [now apply k_tell|]. intro b. apply k_bind'; [apply k_readline|]. intro l.
  destruct (split_on 32 l) as [|meth [|target [|version [|]]]]; try apply k_raise. destruct (is_http_version version); [|apply k_raise].
  apply k_bind'; [apply k_header|]. intro es. apply k_bind'; [apply k_lineend|]. intros _. apply (k_bind (P := noted_as false)); [apply k_dump; constructor|]. intros m N. now apply k_ret.
Qed.
Lemma k_response_heading : keeps parse_response_heading (fun r => noted_as true (rs_msg r)).
Proof.
  unfold parse_response_heading. apply k_bind'; [now apply k_tell|]. intro b. apply k_bind'; [apply k_readline|]. intro l.
  destruct (split_on_2 32 l) as [|version [|status [|reason [|]]]]; try apply k_raise. destruct (_ && _); [|apply k_raise].
  apply k_bind'; [apply k_header|]. intro es. apply k_bind'; [apply k_lineend|]. intros _. apply (k_bind (P := noted_as true)); [apply k_dump; constructor|]. intros m N. now apply k_ret.
Qed.
Lemma k_request_body E m : noted_as false m -> keeps (parse_request_body E m) (noted_as false).
Proof.
  intro N. unfold parse_request_body. destruct (rev _) as [|c rcs].
  - destruct (cl_value _) as [| |n]; [now apply k_ret|now apply k_length|]. destruct (n =? 0)%N; [now apply k_ret|now apply k_length].
  - destruct (coding_is "chunked" c).
    + apply (k_bind (P := noted_as false)); [now apply k_chunked|]. intros m' N'. apply k_ret. now apply noted_decodes.
    + apply k_insane. apply noted_add; [listed|exact N].
Qed.
Lemma k_response_body E req status m : noted_as true m -> keeps (parse_response_body E req status m) (noted_as true).
Proof.
  intro N. unfold parse_response_body. destruct (status =? 101)%N; [apply k_insane; apply noted_add; [listed|exact N]|]. destruct (_ && _); [apply k_insane; apply noted_add; [listed|exact N]|].
  destruct (_ || _); [now apply k_ret|]. destruct (rev _) as [|c rcs].
  - destruct (cl_value _) as [| |n]; [|now apply k_length|now apply k_length]. apply k_bind'; [apply k_read|]. intro b. now apply k_ret.
  - destruct (coding_is "chunked" c).
    + apply (k_bind (P := noted_as true)); [now apply k_chunked|]. intros m' N'. apply k_ret. now apply noted_decodes.
    + apply k_bind'; [apply k_read|]. intro b. apply k_ret. now apply noted_decodes.
Qed.
Lemma k_request E : keeps (parse_request E) (fun r => match r with inl q => noted_as false (rq_msg q) | inr b => boxed b end).
Proof.
  intros st I. unfold parse_request. pose proof (k_request_heading I) as [K N]. destruct (parse_request_heading st) as [[r|e|z| |] st']; cbn [fst snd] in *; try (split; [exact K|first [exact Logic.I|now left]]).
  refine (@k_bind _ _ _ _ (noted_as false) _ (@k_request_body E _ N) _ st' K). intros m M. now apply k_ret.
Qed.
Lemma k_responses E req fuel : forall acc, Forall (fun r => noted_as true (rs_msg r)) acc -> keeps (responses_loop fuel E req acc) (fun r => Forall (fun r => noted_as true (rs_msg r)) (fst r) /\ forall b, snd r = Some b -> boxed b).
Proof.
  induction fuel as [|fuel IH]; intros acc A; cbn [responses_loop]; [apply k_fuel|]. intros st I. destruct (good st); [|split; [exact I|split; [exact A|discriminate]]].
  pose proof (k_response_heading I) as [K N]. destruct (parse_response_heading st) as [[r|e|z| |] st']; cbn [fst snd] in *; try (split; [exact K|]; first [exact Logic.I|split; [exact A|intros b Q; cbn [snd] in Q; injection Q as <-; now right]]).
  refine (@k_bind _ _ _ _ (noted_as true) _ (@k_response_body E req (rs_status r) _ N) _ st' K). intros m M. assert (A' : Forall (fun r => noted_as true (rs_msg r)) (acc ++ [set_rs_msg m r])) by (apply Forall_app; auto).
  destruct (_ || _); [apply k_ret; now split|now apply IH].
Qed.
Definition noted_exchange (x : exchange) : Prop :=
  match x with Exchange q ps => (forall r, q = Some r -> noted_as false (rq_msg r)) /\ Forall (fun r => noted_as true (rs_msg r)) ps | ComplaintBox b => boxed b end.
Definition calm_stream (o : option stream) : Prop := forall st, o = Some st -> pends st.
Lemma opt_box_noted b : (forall x, b = Some x -> boxed x) -> Forall noted_exchange (opt_box b).
Proof. intro H. destruct b; constructor; [now apply H|constructor]. Qed.
Lemma k_requests_loop fuel E : forall acc i o, Forall noted_exchange acc -> pends i -> calm_stream o ->
  Forall noted_exchange (yielded (requests_loop fuel E acc i o)) /\ calm_stream (outb (requests_loop fuel E acc i o)).
Proof.
  induction fuel as [|fuel IH]; intros acc i o A I O; cbn [requests_loop]; [split; [exact A|exact O]|]. destruct (good i); [|split; [exact A|exact O]].
  pose proof (@k_request E i I) as [K N]. destruct (parse_request E i) as [[[q|b]|e|z| |] i']; cbn [fst snd] in *; try (split; [exact A|exact O]).
  - destruct o as [os|].
    + destruct (good os).
      * pose proof (@k_responses E (Some q) (S (List.length (rest os))) [] (Forall_nil _) os (O os eq_refl)) as [K' N']. fold (parse_responses E (Some q) os) in K', N'.
        destruct (parse_responses E (Some q) os) as [[[ps rb]|e|z| |] os']; cbn [fst snd yielded outb] in *.
        { apply IH; [|destruct (ends_http q ps); exact K|intros st Q; now injection Q as <-]. rewrite !Forall_app. split; [exact A|]. destruct N' as [N' B]. split; [|now apply opt_box_noted]. constructor; [|constructor]. split; [intros r Q; now injection Q as <-|exact N']. }
        all: split; [exact A|intros st Q; now injection Q as <-].
      * apply IH; [|exact K|exact O]. rewrite Forall_app. split; [exact A|]. constructor; [|constructor]. split; [intros r Q; now injection Q as <-|constructor].
    + apply IH; [|exact K|exact O]. rewrite Forall_app. split; [exact A|]. constructor; [|constructor]. split; [intros r Q; now injection Q as <-|constructor].
  - apply IH; [|exact K|exact O]. rewrite Forall_app. split; [exact A|]. constructor; [exact N|constructor].
Qed.
Lemma k_orphans fuel E : forall acc i o, Forall noted_exchange acc -> pends o -> Forall noted_exchange (yielded (orphans_loop fuel E acc i o)).
Proof.
  induction fuel as [|fuel IH]; intros acc i o A O; cbn [orphans_loop]; [exact A|]. destruct (good o); [|exact A].
  pose proof (@k_responses E None (S (List.length (rest o))) [] (Forall_nil _) o O) as [K' N']. fold (parse_responses E None o) in K', N'.
  destruct (parse_responses E None o) as [[[ps rb]|e|z| |] os']; cbn [fst snd yielded] in *; try exact A. apply IH; [|exact K']. rewrite !Forall_app. split; [exact A|]. destruct N' as [N' B]. split; [|now apply opt_box_noted].
  destruct (is_nil ps); [constructor|]. constructor; [|constructor]. split; [discriminate|exact N'].
Qed.
Theorem streams_noted E i o : calm_stream i -> calm_stream o -> Forall noted_exchange (yielded (parse_streams E i o)).
Proof.
  intros I O. unfold parse_streams.
  set (r1 := match i with Some i => requests_loop (loop_fuel i) E [] i o | None => mkResult [] None o Finished end).
  assert (R : Forall noted_exchange (yielded r1) /\ calm_stream (outb r1)).
  { unfold r1. destruct i as [i|]; [apply k_requests_loop; [constructor|now apply I|exact O]|split; [constructor|exact O]]. }
  destruct R as [R1 R2]. destruct (how r1); try exact R1.
  assert (A : Forall noted_exchange (yielded r1 ++ match inb r1 with Some i => if eof i then [] else [ComplaintBox (BoxOffset 1007 (pos i))] | None => [] end)).
  { apply Forall_app. split; [exact R1|]. destruct (inb r1) as [j|]; [destruct (eof j)|]; repeat constructor. }
  destruct (outb r1) as [os|]; [|exact A].
  match goal with |- context [if good os then ?a else ?b] => set (r2 := if good os then a else b) end.
  assert (R3 : Forall noted_exchange (yielded r2)).
  { unfold r2. destruct (good os); [|exact A]. apply k_orphans; [|now apply R2]. apply Forall_app. split; [exact A|]. destruct (inb r1); repeat constructor. }
  destruct (how r2); try exact R3. destruct (outb r2) as [o'|]; [|exact R3]. cbn [yielded]. apply Forall_app. split; [exact R3|]. destruct (eof o'); constructor; [now right|constructor].
Qed.
Lemma new_calm o : calm_stream (option_map new_stream o).
Proof. intros st H. destruct o as [x|]; [|discriminate H]. injection H as <-. constructor. Qed.
