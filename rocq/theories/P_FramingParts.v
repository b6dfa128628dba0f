(** C112: an error in the framing of a stream says which part of a message it is about. *)
From Coq Require Import String.
From Verif Require Import Base Stream StreamProofs Framing FramingBasics FramingParts P_FramingRuns.
From Coq Require Import ZifyBool ZifyNat ZifyN.
Open Scope list_scope.
Unset Strict Implicit.

(** ** Specification *)

(** The stream has come to some place in the bytes. *)
Definition on (w : str) (st : stream) : Prop := exists before, w = before ++ rest st /\ pos st = lenN before.
(** What is at an offset in the bytes. *)
Definition from_offset (w : str) (at_ : N) : str := skipn (N.to_nat at_) w.
(** The part that an error in a heading is about: the first line if it is where the heading starts; the
    message as a whole if it is where the header should end; else a field. *)
Definition in_heading (first : part) (w : str) (start : N) (e : perror) : part :=
  if (pe_pos e =? start)%N then first else if stops (from_offset w (pe_pos e)) then HttpMessage else HeaderField.
(** The same for what follows the last chunk. *)
Definition in_trailer (w : str) (e : perror) : part := if stops (from_offset w (pe_pos e)) then ChunkedBody else HeaderField.
(** The part that an error in a chunk is about: its size if that is not a number. *)
Definition in_chunk (e : perror) : part := match pe_expected e with ExpNothing => ChunkSize | _ => Chunk end.

(** ** Proofs *)

Lemma on_adv w st st' : adv st st' -> on w st -> on w st'.
Proof.
  intros [[c [C1 C2]] _ _ _ _] [before [W P]]. exists (before ++ c). rewrite W, C1, app_assoc. split; [reflexivity|]. rewrite C2, P, lenN_app. reflexivity.
Qed.
Lemma on_offset w st before after : on w st -> rest st = before ++ after -> from_offset w (pos st + lenN before) = after.
Proof.
  intros [c [W P]] R. unfold from_offset. rewrite W, R, P, app_assoc, <- lenN_app, lenN_length, Nnat.Nat2N.id. rewrite skipn_app, skipn_all, Nat.sub_diag. reflexivity.
Qed.
Lemma header_named w last st e b : on w st -> header_part last st e b -> b = Some (if stops (from_offset w (pe_pos e)) then last else HeaderField).
Proof. intros O (before & after & R & P & ->). now rewrite P, (on_offset O R). Qed.
Lemma heading_named w first st e b : on w st -> heading_part first st e b -> b = Some (in_heading first w (pos st) e).
Proof. intros O H. unfold heading_part, in_heading in *. destruct (_ =? _)%N; [exact H|]. exact (header_named O H). Qed.

(** C112.  An error in the heading of a request: where the error is decides which part it names, and
    the stack is left as it was found. *)
Theorem C112_request_heading : forall w st e st1, on w st -> parse_request_heading st = (ParseErr e, st1) ->
  forall stk, traced_request_heading (stk, st) = ((ParseErr e, Some (in_heading RequestLine w (pos st) e)), (stk, st1)).
Proof.
  intros w st e st1 O H stk. pose proof (@f_request_heading stk st) as F. destruct (traced_request_heading (stk, st)) as [[r b] [stk' st']]. destruct F as (F1 & -> & F3).
  assert (Q : (r, st') = (ParseErr e, st1)) by congruence. injection Q as -> ->. now rewrite (heading_named O (F3 e eq_refl)).
Qed.
Print Assumptions C112_request_heading.
Theorem C112_response_heading : forall w st e st1, on w st -> parse_response_heading st = (ParseErr e, st1) ->
  forall stk, traced_response_heading (stk, st) = ((ParseErr e, Some (in_heading StatusLine w (pos st) e)), (stk, st1)).
Proof.
  intros w st e st1 O H stk. pose proof (@f_response_heading stk st) as F. destruct (traced_response_heading (stk, st)) as [[r b] [stk' st']]. destruct F as (F1 & -> & F3).
  assert (Q : (r, st') = (ParseErr e, st1)) by congruence. injection Q as -> ->. now rewrite (heading_named O (F3 e eq_refl)).
Qed.
Print Assumptions C112_response_heading.
(** C112.  An error in chunked framing names a chunk or its size as long as the last chunk has not been
    read, and then a field or the chunked body. *)
Theorem C112_chunked : forall w st e st1, on w st -> chunked_framing st = (ParseErr e, st1) ->
  forall stk, traced_chunked (stk, st) = ((ParseErr e, Some (match fst (parse_chunks st) with Val _ => in_trailer w e | _ => in_chunk e end)), (stk, st1)).
Proof.
  intros w st e st1 O H stk. pose proof (@f_chunked stk st) as F. destruct (traced_chunked (stk, st)) as [[r b] [stk' st']]. destruct F as (F1 & -> & F3).
  assert (Q : (r, st') = (ParseErr e, st1)) by congruence. injection Q as -> ->. specialize (F3 e eq_refl). unfold chunked_part in F3.
  destruct (parse_chunks st) as [[d|e'|z| |] st2] eqn:C; cbn [fst]; try (rewrite F3; reflexivity).
  assert (O2 : on w st2). { apply (on_adv (st := st)); [|exact O]. unfold parse_chunks in C. apply WB_chunks_loop in C. now destruct C. }
  rewrite (header_named O2 F3). reflexivity.
Qed.
Print Assumptions C112_chunked.

(** *** Whole runs *)

(** The error of a complaint box comes from a heading in the inbound or the outbound stream. *)
Definition box_told (i o : option str) (b : box) : Prop :=
  match b with
  | BoxError id e =>
      exists w st st1, on w st /\
      ((id = 1006%N /\ i = Some w /\ traced_request_heading ([None], st) = ((ParseErr e, Some (in_heading RequestLine w (pos st) e)), ([None], st1))) \/
       (id = 1009%N /\ o = Some w /\ traced_response_heading ([None], st) = ((ParseErr e, Some (in_heading StatusLine w (pos st) e)), ([None], st1))))
  | _ => True
  end.
(** The error of notice 1005 comes from chunked framing in the stream of the message. *)
Definition chunked_told (w : str) (e : perror) : Prop :=
  exists st st1, on w st /\ traced_chunked ([None], st) = ((ParseErr e, Some (match fst (parse_chunks st) with Val _ => in_trailer w e | _ => in_chunk e end)), ([None], st1)).
Definition told (w : str) (m : message) : Prop := forall e, In (mkNote 1005 (CtxError e)) (notes m) -> chunked_told w e.
Definition exchange_told (i o : option str) (y : exchange) : Prop :=
  match y with
  | Exchange q ps => (forall r, q = Some r -> exists w, i = Some w /\ told w (rq_msg r)) /\ Forall (fun p => exists w, o = Some w /\ told w (rs_msg p)) ps
  | ComplaintBox b => box_told i o b
  end.

Section One.
Variable w : str.
Definition keeps {A} (c : M A) (Q : A -> Prop) : Prop := forall st, on w st -> on w (snd (c st)) /\ match fst (c st) with Val a => Q a | _ => True end.
Lemma k_wb {A} (c : M A) : WB c -> keeps c (fun _ => True).
Proof. intros W st O. destruct (c st) as [r st'] eqn:R. pose proof (W _ _ _ R) as [A' _ _]. split; [exact (on_adv A' O)|]. cbn [fst]. destruct r; exact Logic.I. Qed.
Lemma k_ret {A} (a : A) (Q : A -> Prop) : Q a -> keeps (ret a) Q.
Proof. intros H st I. split; [exact I|exact H]. Qed.
Lemma k_insane {A} (a : A) (Q : A -> Prop) : Q a -> keeps (fun st => (Val a, set_sane false st)) Q.
Proof. intros H st I. split; [exact I|exact H]. Qed.
Lemma k_bind {A B} (c : M A) (f : A -> M B) P Q : keeps c P -> (forall a, P a -> keeps (f a) Q) -> keeps (bind c f) Q.
Proof. intros C F st I. destruct (C st I) as [I' H]. unfold bind. destruct (c st) as [[a|e|z| |] st']; cbn [fst snd] in *; auto. now apply F. Qed.
Lemma k_bind' {A B} (c : M A) (f : A -> M B) Q : WB c -> (forall a, keeps (f a) Q) -> keeps (bind c f) Q.
Proof. intros C F. apply (k_bind (k_wb C)). auto. Qed.
Lemma told_add n m : (forall e, n = mkNote 1005 (CtxError e) -> False) -> told w m -> told w (msg_complain n m).
Proof. intros N T e I. unfold msg_complain, add_note in I. cbn [notes] in I. destruct (existsb _ _); [now apply T|]. apply in_app_iff in I. destruct I as [I|[I|[]]]; [now apply T|]. exact (False_ind _ (N e I)). Qed.
Ltac other := intros ? Q; discriminate Q.
Lemma k_dump p m : told w m -> keeps (dump_complaints p m) (told w).
Proof.
  intros T st O. split; [exact O|]. unfold dump_complaints. cbn [fst]. revert m T. induction (pending st) as [|i l IH]; intros m T; [exact T|]. cbn [fold_left]. apply IH. apply told_add; [other|exact T].
Qed.
Lemma fresh es n : told w (mkMessage es [] (Unavail None) n []). Proof. intros e []. Qed.
Lemma k_request_heading : keeps parse_request_heading (fun r => told w (rq_msg r)).
Proof.
  unfold parse_request_heading. apply k_bind'; [apply WB_tell|]. intro b. apply k_bind'; [apply WB_readline|]. intro l.
  destruct (split_on 32 l) as [|meth [|target [|version [|]]]]; try (intros st O; split; [exact O|exact Logic.I]). destruct (is_http_version version); [|intros st O; split; [exact O|exact Logic.I]].
  apply k_bind'; [apply WB_parse_header_fields|]. intro es. apply k_bind'; [apply WB_readlineend|]. intros _. apply (k_bind (P := told w)); [apply k_dump, fresh|]. intros m N. now apply k_ret.
Qed.
Lemma k_response_heading : keeps parse_response_heading (fun r => told w (rs_msg r)).
Proof.
  unfold parse_response_heading. apply k_bind'; [apply WB_tell|]. intro b. apply k_bind'; [apply WB_readline|]. intro l.
  destruct (split_on_2 32 l) as [|meth [|target [|version [|]]]]; try (intros st O; split; [exact O|exact Logic.I]). destruct (_ && _); [|intros st O; split; [exact O|exact Logic.I]].
  apply k_bind'; [apply WB_parse_header_fields|]. intro es. apply k_bind'; [apply WB_readlineend|]. intros _. apply (k_bind (P := told w)); [apply k_dump, fresh|]. intros m N. now apply k_ret.
Qed.
Lemma k_length o m : told w m -> keeps (process_content_length o m) (told w).
Proof.
  intro N. destruct o as [n|]; cbn [process_content_length]; [|now apply k_insane]. destruct (_ <? _)%Z; [apply k_insane; apply told_add; [other|exact N]|].
  intros st I. pose proof (k_wb (WB_read (Z.of_N n)) I) as [K _]. destruct (read (Z.of_N n) st) as [[b|e|z| |] st']; cbn [fst snd] in *; (split; [exact K|]); try exact Logic.I; [exact N|]. apply told_add; [other|exact N].
Qed.
Lemma k_chunked m : told w m -> keeps (parse_chunked m) (told w).
Proof.
  intros N st I. unfold parse_chunked. pose proof (k_wb WB_chunked_framing I) as [K _]. destruct (chunked_framing st) as [[[d t]|e|z| |] st'] eqn:C; cbn [fst snd] in *; try (split; [exact K|]; try exact Logic.I).
  - pose proof (k_dump ChunkedFraming N K) as [K' N']. exact N'.
  - intros e' J. unfold msg_complain, add_note in J. cbn [notes set_body] in J. destruct (existsb _ _); [now apply N|]. apply in_app_iff in J. destruct J as [J|[J|[]]]; [now apply N|].
    injection J as <-. exists st, st'. split; [exact I|]. exact (@C112_chunked w st e st' I C [None]).
  - intros e' J. refine (@told_add (mkNote 1298 (CtxSize ChunkedFraming z)) m _ N e' J). other.
Qed.
Lemma told_decode E c m : told w m -> told w (decode_transfer_coding E c m).
Proof.
  intro N. unfold decode_transfer_coding. destruct (coding_is "chunked" c); [apply (@told_add (mkNote 1002 CtxNone) m); [other|exact N]|]. destruct (_ || _).
  - destruct (mbody m); [|exact N]. destruct (if coding_is _ _ then _ else _); [exact N|]. apply (@told_add (mkNote 1027 _) m); [other|exact N].
  - destruct c as [x|]; [|exact N]. apply (@told_add (mkNote 1003 (CtxCoding x)) m); [other|exact N].
Qed.
Lemma told_decodes E rcs : forall m, told w m -> told w (decode_codings E rcs m).
Proof. induction rcs as [|c rcs IH]; intros m N; cbn [decode_codings]; [exact N|]. destruct (body_okay _); [apply IH; now apply told_decode|exact N]. Qed.
Lemma k_request_body E m : told w m -> keeps (parse_request_body E m) (told w).
Proof.
  intro N. unfold parse_request_body. destruct (rev _) as [|c rcs].
  - destruct (cl_value _) as [| |n]; [now apply k_ret|now apply k_length|]. destruct (n =? 0)%N; [now apply k_ret|now apply k_length].
  - destruct (coding_is "chunked" c).
    + apply (k_bind (P := told w)); [now apply k_chunked|]. intros m' N'. apply k_ret. now apply told_decodes.
    + apply k_insane. apply told_add; [other|exact N].
Qed.
Lemma k_response_body E req status m : told w m -> keeps (parse_response_body E req status m) (told w).
Proof.
  intro N. unfold parse_response_body. destruct (status =? 101)%N; [apply k_insane; apply told_add; [other|exact N]|]. destruct (_ && _); [apply k_insane; apply told_add; [other|exact N]|].
  destruct (_ || _); [now apply k_ret|]. destruct (rev _) as [|c rcs].
  - destruct (cl_value _) as [| |n]; [|now apply k_length|now apply k_length]. apply k_bind'; [apply WB_read|]. intro b. now apply k_ret.
  - destruct (coding_is "chunked" c).
    + apply (k_bind (P := told w)); [now apply k_chunked|]. intros m' N'. apply k_ret. now apply told_decodes.
    + apply k_bind'; [apply WB_read|]. intro b. apply k_ret. now apply told_decodes.
Qed.
Lemma k_request E o : keeps (parse_request E) (fun r => match r with inl q => told w (rq_msg q) | inr b => box_told (Some w) o b end).
Proof.
  intros st I. unfold parse_request. pose proof (k_request_heading I) as [K N]. destruct (parse_request_heading st) as [[r|e|z| |] st'] eqn:H; cbn [fst snd] in *; try (split; [exact K|exact Logic.I]).
  - refine (@k_bind _ _ _ _ (told w) _ (@k_request_body E _ N) _ st' K). intros m M. now apply k_ret.
  - split; [exact K|]. exists w, st, st'. split; [exact I|]. left. split; [reflexivity|]. split; [reflexivity|]. exact (C112_request_heading I H [None]).
Qed.
Lemma k_responses E i req fuel : forall acc, Forall (fun r => told w (rs_msg r)) acc ->
  keeps (responses_loop fuel E req acc) (fun r => Forall (fun r => told w (rs_msg r)) (fst r) /\ forall b, snd r = Some b -> box_told i (Some w) b).
Proof.
  induction fuel as [|fuel IH]; intros acc A; cbn [responses_loop]; [intros st I; split; [exact I|exact Logic.I]|]. intros st I. destruct (good st); [|split; [exact I|split; [exact A|discriminate]]].
  pose proof (k_response_heading I) as [K N]. destruct (parse_response_heading st) as [[r|e|z| |] st'] eqn:H; cbn [fst snd] in *; try (split; [exact K|exact Logic.I]).
  - refine (@k_bind _ _ _ _ (told w) _ (@k_response_body E req (rs_status r) _ N) _ st' K). intros m M. assert (A' : Forall (fun r => told w (rs_msg r)) (acc ++ [set_rs_msg m r])) by (apply Forall_app; auto).
    destruct (_ || _); [apply k_ret; split; [exact A'|discriminate]|now apply IH].
  - split; [exact K|]. split; [exact A|]. intros b Q. injection Q as <-. exists w, st, st'. split; [exact I|]. right. split; [reflexivity|]. split; [reflexivity|]. exact (C112_response_heading I H [None]).
Qed.
End One.
Definition calm (w : option str) (o : option stream) : Prop := forall st, o = Some st -> exists x, w = Some x /\ on x st.
Lemma opt_told i o b : (forall x, b = Some x -> box_told i o x) -> Forall (exchange_told i o) (opt_box b).
Proof. intro H. destruct b; constructor; [now apply H|constructor]. Qed.
Lemma of_all o w (ps : list response) : o = Some w -> Forall (fun r => told w (rs_msg r)) ps -> Forall (fun p => exists w, o = Some w /\ told w (rs_msg p)) ps.
Proof. intros W F. apply (Forall_impl _ (P := fun r => told w (rs_msg r))); [|exact F]. intros r T. eauto. Qed.
Lemma k_requests_loop wi wo fuel E : forall acc i o, Forall (exchange_told (Some wi) wo) acc -> on wi i -> calm wo o ->
  Forall (exchange_told (Some wi) wo) (yielded (requests_loop fuel E acc i o)) /\ calm wo (outb (requests_loop fuel E acc i o)).
Proof.
  induction fuel as [|fuel IH]; intros acc i o A I O; cbn [requests_loop]; [split; [exact A|exact O]|]. destruct (good i); [|split; [exact A|exact O]].
  pose proof (@k_request wi E wo i I) as [K N]. destruct (parse_request E i) as [[[q|b]|e|z| |] i']; cbn [fst snd] in *; try (split; [exact A|exact O]).
  - assert (One : exchange_told (Some wi) wo (Exchange (Some q) [])) by (split; [intros r Q; injection Q as <-; eauto|constructor]).
    destruct o as [os|].
    + destruct (good os).
      * destruct (O os eq_refl) as [x [X Ox]]. pose proof (@k_responses x E (Some wi) (Some q) (S (List.length (rest os))) [] (Forall_nil _) os Ox) as [K' N']. fold (parse_responses E (Some q) os) in K', N'.
        destruct (parse_responses E (Some q) os) as [[[ps rb]|e|z| |] os']; cbn [fst snd yielded outb] in *.
        { apply IH; [|destruct (ends_http q ps); exact K|intros st Q; injection Q as <-; eauto]. rewrite !Forall_app. split; [exact A|]. destruct N' as [N' B]. split; [|apply opt_told; rewrite X; exact B].
          constructor; [|constructor]. split; [intros r Q; injection Q as <-; eauto|exact (of_all X N')]. }
        all: split; [exact A|intros st Q; injection Q as <-; eauto].
      * apply IH; [|exact K|exact O]. rewrite Forall_app. split; [exact A|]. constructor; [exact One|constructor].
    + apply IH; [|exact K|exact O]. rewrite Forall_app. split; [exact A|]. constructor; [exact One|constructor].
  - apply IH; [|exact K|exact O]. rewrite Forall_app. split; [exact A|]. constructor; [exact N|constructor].
Qed.
Lemma k_orphans wi wo fuel E : forall acc i o, Forall (exchange_told wi (Some wo)) acc -> on wo o -> Forall (exchange_told wi (Some wo)) (yielded (orphans_loop fuel E acc i o)).
Proof.
  induction fuel as [|fuel IH]; intros acc i o A O; cbn [orphans_loop]; [exact A|]. destruct (good o); [|exact A].
  pose proof (@k_responses wo E wi None (S (List.length (rest o))) [] (Forall_nil _) o O) as [K' N']. fold (parse_responses E None o) in K', N'.
  destruct (parse_responses E None o) as [[[ps rb]|e|z| |] os']; cbn [fst snd yielded] in *; try exact A. apply IH; [|exact K']. rewrite !Forall_app. split; [exact A|]. destruct N' as [N' B]. split; [|now apply opt_told].
  destruct (is_nil ps); [constructor|]. constructor; [|constructor]. split; [discriminate|exact (of_all eq_refl N')].
Qed.
Lemma streams_told E wi wo i o : calm wi i -> calm wo o -> Forall (exchange_told wi wo) (yielded (parse_streams E i o)).
Proof.
  intros I O. unfold parse_streams.
  set (r1 := match i with Some i => requests_loop (loop_fuel i) E [] i o | None => mkResult [] None o Finished end).
  assert (R : Forall (exchange_told wi wo) (yielded r1) /\ calm wo (outb r1)).
  { unfold r1. destruct i as [i|]; [|split; [constructor|exact O]]. destruct (I i eq_refl) as [x [-> Ox]]. apply k_requests_loop; [constructor|exact Ox|exact O]. }
  destruct R as [R1 R2]. destruct (how r1); try exact R1.
  assert (A : Forall (exchange_told wi wo) (yielded r1 ++ match inb r1 with Some i => if eof i then [] else [ComplaintBox (BoxOffset 1007 (pos i))] | None => [] end)).
  { apply Forall_app. split; [exact R1|]. destruct (inb r1) as [j|]; [destruct (eof j)|]; repeat constructor. }
  destruct (outb r1) as [os|]; [|exact A].
  match goal with |- context [if good os then ?a else ?b] => set (r2 := if good os then a else b) end.
  assert (R3 : Forall (exchange_told wi wo) (yielded r2)).
  { unfold r2. destruct (good os); [|exact A]. destruct (R2 os eq_refl) as [x [-> Ox]]. apply k_orphans; [|exact Ox]. apply Forall_app. split; [exact A|]. destruct (inb r1); repeat constructor. }
  destruct (how r2); try exact R3. destruct (outb r2) as [o'|]; [|exact R3]. cbn [yielded]. apply Forall_app. split; [exact R3|]. destruct (eof o'); repeat constructor.
Qed.
Lemma new_on o : calm o (option_map new_stream o).
Proof. intros st H. destruct o as [x|]; [|discriminate H]. injection H as <-. exists x. split; [reflexivity|]. exists []. split; reflexivity. Qed.
(** C112.  Over a whole run: the error of each complaint box, and of each notice 1005, names the part that
    its offset calls for. *)
Theorem C112_runs : forall E i o y, In y (yielded (parse_bytes E i o)) -> exchange_told i o y.
Proof. intros E i o y Y. pose proof (@streams_told E i o _ _ (@new_on i) (@new_on o)) as F. rewrite Forall_forall in F. exact (F y Y). Qed.
Print Assumptions C112_runs.

(** Three errors: a field without a colon, the end of the stream inside a header, and a chunk size that is not a number. *)
Definition bad_field : str := crlf "GET / HTTP/1.1" ++ crlf "Host: a" ++ crlf "what".
Definition bad_end : str := crlf "GET / HTTP/1.1" ++ crlf "Host: a".
Definition bad_size : str := crlf "zz" ++ crlf "".
Example C112_example :
  traced_request_heading ([None], new_stream bad_field) = ((ParseErr (mkPerror 25 ExpNothing), Some HeaderField), ([None], snd (snd (traced_request_heading ([None], new_stream bad_field))))) /\
  in_heading RequestLine bad_field 0 (mkPerror 25 ExpNothing) = HeaderField /\
  fst (traced_request_heading ([None], new_stream bad_end)) = (ParseErr (mkPerror 25 ExpLine), Some HttpMessage) /\
  in_heading RequestLine bad_end 0 (mkPerror 25 ExpLine) = HttpMessage /\
  fst (traced_chunked ([None], new_stream bad_size)) = (ParseErr (mkPerror 0 ExpNothing), Some ChunkSize) /\
  In (ComplaintBox (BoxError 1006 (mkPerror 25 ExpNothing))) (yielded (parse_bytes env0 (Some bad_field) None)).
Proof. vm_compute. repeat split; auto. Qed.
