(** C17-C27 and C59: what [parse_streams] makes of the bytes of HTTP/1.x
    messages.  The format of messages is specified in FramingSpec.v. *)
From Verif Require Import Base Stream StreamProofs Framing FramingBasics FramingRuns FramingTop
  FramingSpec FramingWire FramingMessages FramingConv FramingOrigin FramingEnds ChunkSizes P_FramingRuns.
From Coq Require Import ZifyBool ZifyNat ZifyN.
Unset Strict Implicit.

(** * C17: requests survive a round trip *)

(** Writing a request: every line ends in CR LF. *)
Definition write_line (x : str) : str := x ++ [13; 10].
Definition write_fields (es : list entry) : str :=
  flat_map (fun e => write_line (fst e ++ [58; 32] ++ snd e)) es.
Definition write_heading (meth target version : str) (es : list entry) : str :=
  write_line (meth ++ [32] ++ target ++ [32] ++ version) ++ write_fields es ++ write_line [].
(** Chunks are given with the spelling of their sizes. *)
Definition write_chunked (cs : list (str * str)) (trailer : list entry) : str :=
  flat_map (fun c => write_line (fst c) ++ write_line (snd c)) cs ++
  write_line [48] ++ write_fields trailer ++ write_line [].

(** What can be written on one line. *)
Definition fits (x : str) : Prop := ~ In 10 x /\ lenN x <= 16382.
Definition good_field (e : entry) : Prop :=
  ~ In 58 (fst e) /\
  (forall c r, fst e = c :: r -> c <> 32 /\ c <> 9 /\ c <> 13) /\
  trimmed (snd e) /\
  fits (fst e ++ [58; 32] ++ snd e).
Definition good_heading (meth target version : str) (es : list entry) : Prop :=
  ~ In 32 meth /\ ~ In 32 target /\ http_version version /\
  fits (meth ++ [32] ++ target ++ [32] ++ version) /\ Forall good_field es.
Definition good_chunk (c : str * str) : Prop :=
  hexadecimal (fst c) (lenN (snd c)) /\ snd c <> [] /\ fits (fst c).

Definition simple_field (e : entry) : wfield := mkField (fst e) (32 :: snd e) true [].

Lemma lenN_nonneg_app {A} (x : list A) (y : list A) : lenN (x ++ y) = lenN x + lenN y.
Proof. apply lenN_app. Qed.

Lemma fits_line x : fits x -> line_ok (mkLine x true).
Proof.
  intros [H1 H2]. split; [exact H1|]. split; [discriminate|]. unfold render_line. cbn [text crlf_end eol].
  rewrite lenN_app. cbn [lenN]. lia.
Qed.

Lemma good_field_ok e : good_field e ->
  field_ok (simple_field e) /\ ~ starts_blank (text (f_line (simple_field e))).
Proof.
  destruct e as [n v]. intros (H1 & H2 & H3 & H4). unfold simple_field. cbn [fst snd] in *. split.
  - split; [exact H1|]. split; [apply fits_line; exact H4|]. split; [|constructor].
    cbn. intros x ->. destruct (H2 13 x eq_refl) as (_ & _ & K). now apply K.
  - intros (c & r & K & Bl). cbn in K. destruct n as [|a n].
    + injection K as <- _. discriminate.
    + injection K as <- _. destruct (H2 a n eq_refl) as (K1 & K2 & _). unfold is_blank in Bl. lia.
Qed.

Lemma simple_fields_ok es : Forall good_field es ->
  fields_ok (map simple_field es) /\ Forall2 field_entry (map simple_field es) es /\
  render_fields (map simple_field es) = write_fields es /\ fields_notes (map simple_field es) = [].
Proof.
  intro F.
  assert (Forall field_ok (map simple_field es) /\
          Forall (fun f => ~ starts_blank (text (f_line f))) (map simple_field es)) as [A B].
  { split; apply Forall_map; (eapply Forall_impl; [|exact F]); intros e He; now apply good_field_ok. }
  split; [|split; [|split]].
  - split; [exact A|]. destruct es; [constructor|]. cbn. inversion B; assumption.
  - apply entries_iff. clear A B. induction F as [|[n v] es (H1 & H2 & H3 & H4) F IH]; [reflexivity|].
    cbn [map]. rewrite <- IH. f_equal. unfold entry_of, simple_field. cbn [f_name f_raw f_conts map joined fst snd].
    unfold joined. cbn [flat_map]. rewrite app_nil_r. cbn [fst snd] in *. f_equal. symmetry.
    rewrite <- (app_nil_r v) at 1. apply (@strip_pad [32]); [repeat constructor|constructor|assumption].
  - clear. induction es as [|e es IH]; [reflexivity|]. cbn. unfold render_fields in IH. rewrite IH.
    unfold render_field, simple_field, render_line, write_line. cbn. rewrite <- !app_assoc. reflexivity.
  - clear. induction es as [|e es IH]; [reflexivity|]. exact IH.
Qed.

Lemma write_block es : Forall good_field es -> block_on_wire es [] (write_fields es ++ write_line []).
Proof.
  intro F. destruct (simple_fields_ok F) as (H1 & H2 & H3 & H4).
  exists (map simple_field es), true. rewrite H3, H4. auto.
Qed.

Lemma write_heading_wire meth target version es :
  good_heading meth target version es ->
  request_heading_on_wire meth target version es [] (write_heading meth target version es).
Proof.
  intros (H1 & H2 & H3 & H4 & H5). split; [assumption|]. split; [assumption|]. split; [assumption|].
  exists (mkLine (request_line meth target version) true), [], (write_fields es ++ write_line []).
  split; [reflexivity|]. split; [apply fits_line; exact H4|]. split; [now apply write_block|]. auto.
Qed.

Lemma write_chunked_wire cs tr :
  Forall good_chunk cs -> Forall good_field tr -> lenN (flat_map snd cs) <= 1073741824 ->
  chunked_on_wire (flat_map snd cs) tr [] (write_chunked cs tr).
Proof.
  intros F T L.
  set (mk := fun c : str * str => mkChunk (fst c) None true (snd c) true).
  assert (forall x n, hexadecimal x n -> ~ In 59 x) as NS.
  { intros x n H I. apply hexadecimal_chars in H. destruct H as [_ H]. destruct (H _ I) as (e & D).
    unfold hexdigit in D. lia. }
  exists (map mk cs), (mk ([48], [])), [], (write_fields tr ++ write_line []).
  split; [|split; [|split; [|split; [|split; [|split; [|split; [|split]]]]]]].
  - apply Forall_map. eapply Forall_impl; [|exact F]. intros [x d] (H1 & H2 & H3). unfold mk. cbn [fst snd] in *.
    split; [eapply NS; eauto|]. split; [|split; [|assumption]].
    + unfold c_line. cbn. rewrite app_nil_r. now apply fits_line.
    + cbn. rewrite <- (app_nil_r x). apply hex_size_complete; [assumption|constructor].
  - clear. induction cs as [|c cs IH]; [reflexivity|]. cbn. now rewrite IH.
  - assumption.
  - cbn. intros [K|[]]. discriminate.
  - apply fits_line. split; [|cbn; lia]. cbn. intros [K|[]]. discriminate.
  - reflexivity.
  - now apply write_block.
  - unfold write_chunked. f_equal. clear. induction cs as [|c cs IH]; [reflexivity|]. cbn. rewrite IH. f_equal.
    unfold render_chunk, render_line, c_line, write_line. cbn. now rewrite app_nil_r.
  - cbn. rewrite app_nil_r. clear. induction cs as [|c cs IH]; [reflexivity|]. exact IH.
Qed.

(** A request with a Content-Length (or neither field and no body): the same
    method, target, version, entries and body come back, no notice is
    reported, and exactly the bytes of the request are consumed. *)
Theorem C17_request_round_trip :
  forall (E : env) (meth target version : str) (es : list entry) (body following : str),
    good_heading meth target version es ->
    transfer_codings E es [] ->
    (content_length es (lenN body) /\ lenN body <= 1073741824) \/
      (absent "Content-Length" es /\ body = []) ->
    exists st',
      parse_request E (new_stream (write_heading meth target version es ++ body ++ following)) =
        (Val (inl (mkRequest meth target version (mkMessage es [] (Body body) 0 []))), st') /\
      rest st' = following.
Proof.
  intros E meth target version es body following G T B.
  set (r := mkRequest meth target version (mkMessage es [] (Body body) 0 [])).
  assert (request_on_wire E 0 r (write_heading meth target version es ++ body)) as W.
  { exists es, body, [], [], [], (write_heading meth target version es), body.
    split; [now apply write_heading_wire|]. split; [|auto].
    destruct B as [[B1 B2]|[B1 ->]]; [eapply rqb_length; eauto|now constructor]. }
  assert (rest (new_stream (write_heading meth target version es ++ body ++ following)) =
          (write_heading meth target version es ++ body) ++ following) as R by apply app_assoc.
  destruct (@request_complete E _ _ (new_stream _) following W eq_refl R) as (st' & H1 & _ & H3). eauto.
Qed.
Print Assumptions C17_request_round_trip.

(** A request whose last transfer coding is chunked, for any division of the
    body into chunks, any spelling of their sizes and any trailer. *)
Theorem C17_chunked_request_round_trip :
  forall (E : env) (meth target version : str) (es : list entry) (c : str)
         (cs : list (str * str)) (trailer : list entry) (following : str),
    good_heading meth target version es ->
    transfer_codings E es [Some c] -> lower c = s "chunked" ->
    Forall good_chunk cs -> Forall good_field trailer ->
    lenN (flat_map snd cs) <= 1073741824 ->
    exists st',
      parse_request E (new_stream (write_heading meth target version es ++
                                   write_chunked cs trailer ++ following)) =
        (Val (inl (mkRequest meth target version
                     (mkMessage es trailer (Body (flat_map snd cs)) 0 []))), st') /\
      rest st' = following.
Proof.
  intros E meth target version es c cs tr following G T C F Ft L.
  set (r := mkRequest meth target version (mkMessage es tr (Body (flat_map snd cs)) 0 [])).
  assert (request_on_wire E 0 r (write_heading meth target version es ++ write_chunked cs tr)) as W.
  { exists es, (flat_map snd cs), tr, [], [], (write_heading meth target version es), (write_chunked cs tr).
    split; [now apply write_heading_wire|]. split; [|auto].
    eapply (@rqb_chunked E es []); [exact T|exists c; split; [reflexivity|apply ci_eqb_eq; exact C]|now apply write_chunked_wire|constructor]. }
  assert (rest (new_stream (write_heading meth target version es ++ write_chunked cs tr ++ following)) =
          (write_heading meth target version es ++ write_chunked cs tr) ++ following) as R by apply app_assoc.
  destruct (@request_complete E _ _ (new_stream _) following W eq_refl R) as (st' & H1 & _ & H3). eauto.
Qed.
Print Assumptions C17_chunked_request_round_trip.

Definition sample_entries : list entry := [(s "Host", s "x"); (s "Content-Length", s "3")].

Lemma good_field_by e :
  forallb (fun c => negb (c =? 58)) (fst e) && forallb (fun c => negb (c =? 10)) (fst e ++ [58; 32] ++ snd e) &&
  match fst e with c :: _ => negb (is_blank c) && negb (c =? 13) | [] => true end &&
  str_eqb (strip (snd e)) (snd e) = true ->
  lenN (fst e ++ [58; 32] ++ snd e) <= 16382 -> good_field e.
Proof.
  destruct e as [nm v]. unfold good_field. cbn [fst snd].
  intros H L. rewrite !andb_true_iff in H. destruct H as [[[H1 H2] H3] H4].
  rewrite forallb_forall in H1, H2. apply str_eqb_eq in H4.
  split; [intro I; apply H1 in I; discriminate|]. split; [|split; [|split; [|exact L]]].
  - intros c r ->. unfold is_blank in H3. lia.
  - apply stripped_strip in H4. destruct H4 as (? & ? & ? & ? & ? & K). exact K.
  - intro I; apply H2 in I; discriminate.
Qed.

Example C17_example :
  good_heading (s "PUT") (s "/a") (s "HTTP/1.1") sample_entries /\
  transfer_codings env0 sample_entries [] /\
  content_length sample_entries (lenN (s "a:b")) /\
  write_heading (s "PUT") (s "/a") (s "HTTP/1.1") sample_entries ++ s "a:b" =
    crlf "PUT /a HTTP/1.1" ++ crlf "Host: x" ++ crlf "Content-Length: 3" ++ crlf "" ++ s "a:b".
Proof.
  split; [|split; [|split; [|reflexivity]]].
  - split; [cbn; intuition discriminate|]. split; [cbn; intuition discriminate|].
    split; [exists 49, 49; split; [reflexivity|lia]|].
    split; [split; [cbn; intuition discriminate|cbn; lia]|].
    repeat (constructor; [apply good_field_by; [vm_compute; reflexivity|vm_compute; discriminate]|]). constructor.
  - apply te_value_iff. reflexivity.
  - apply cl_ok_iff. reflexivity.
Qed.

Example C17_chunked_example :
  Forall good_chunk [(s "3", s "abc"); (s "0B", s "hello world")] /\
  write_chunked [(s "3", s "abc"); (s "0B", s "hello world")] [(s "Foo", s "bar")] =
    crlf "3" ++ crlf "abc" ++ crlf "0B" ++ crlf "hello world" ++ crlf "0" ++ crlf "Foo: bar" ++ crlf "".
Proof.
  split; [|reflexivity]. constructor; [|constructor; [|constructor]]; (split; [|split]).
  - apply (@hex_one 51 3). unfold hexdigit. lia.
  - discriminate.
  - split; [cbn; intuition discriminate|vm_compute; discriminate].
  - apply (@hex_more [48] 0 66 11); [constructor|]; unfold hexdigit; lia.
  - discriminate.
  - split; [cbn; intuition discriminate|vm_compute; discriminate].
Qed.

(** * C18: pipelined messages are split and paired in order *)

(** A dialogue: requests on the inbound stream, and for each the responses to
    it (any number of 1xx responses and a final one) on the outbound stream.
    Only the last final response may be delimited by the end of the data. *)
Inductive dialogue (E : env) : N -> N -> list (request * list response) -> str -> str -> Prop :=
| dl_nil ai ao : dialogue E ai ao [] [] []
| dl_step ai ao req rs wi wo f l ti to :
    request_on_wire E ai req wi -> responses_on_wire E (Some req) ao rs wo f -> follows f to ->
    dialogue E (ai + lenN wi) (ao + lenN wo) l ti to ->
    dialogue E ai ao ((req, rs) :: l) (wi ++ ti) (wo ++ to).

Theorem C18_pipelining :
  forall (E : env) (l : list (request * list response)) (inbound outbound : str),
    l <> [] -> dialogue E 0 0 l inbound outbound ->
    how (parse_bytes E (Some inbound) (Some outbound)) = Finished /\
    yielded (parse_bytes E (Some inbound) (Some outbound)) =
      map (fun p => Exchange (Some (fst p)) (snd p)) l.
Proof.
  intros E l wi wo NE D.
  assert (forall ai ao, dialogue E ai ao l wi wo ->
          conversation E ai ao (map (fun p => Exchange (Some (fst p)) (snd p)) l) wi wo) as K.
  { clear. intros ai ao D. induction D as [|ai ao req rs wi wo f l ti to H1 H2 H3 D IH]; cbn; [constructor|].
    eapply cv_answered; eauto. }
  specialize (K _ _ D).
  assert (wi <> [] /\ wo <> []) as [W1 W2].
  { destruct D as [|ai ao req rs wi wo f l ti to H1 H2 H3 D]; [congruence|].
    apply request_wire_pos in H1. apply responses_wire_pos in H2.
    split; intro Q; apply app_eq_nil in Q; tauto. }
  exact (conversation_parsed W1 W2 K).
Qed.
Print Assumptions C18_pipelining.

(** The sample traffic is a dialogue: what the parser made of it cleanly is. *)
Definition two_in : str :=
  crlf "POST / HTTP/1.1" ++ crlf "Content-Length: 3" ++ crlf "" ++ s "abc" ++
  crlf "HEAD /b HTTP/1.1" ++ crlf "".
Definition two_out : str :=
  crlf "HTTP/1.1 100 Continue" ++ crlf "" ++
  crlf "HTTP/1.1 200 OK" ++ crlf "Content-Length: 2" ++ crlf "" ++ s "hi" ++
  crlf "HTTP/1.1 200 OK" ++ crlf "Content-Length: 12345" ++ crlf "".

(** * C59: what is yielded without framing errors was on the wire *)

Theorem C59_clean_runs_are_conversations :
  forall (E : env) (inbound outbound : str) (ys : list exchange),
    inbound <> [] -> outbound <> [] ->
    (conversation E 0 0 ys inbound outbound <->
     how (parse_bytes E (Some inbound) (Some outbound)) = Finished /\
     yielded (parse_bytes E (Some inbound) (Some outbound)) = ys /\
     forallb clean_exchange ys = true).
Proof.
  intros E wi wo ys Wi Wo. split.
  - intro H. destruct (conversation_parsed Wi Wo H) as [K1 K2]. split; [exact K1|]. split; [exact K2|].
    eapply conversation_clean; eauto.
  - intros (H1 & H2 & H3). rewrite <- H2 in *. eapply conversation_sound; eauto.
Qed.
Print Assumptions C59_clean_runs_are_conversations.

Theorem C59_clean_requests :
  forall (E : env) (inbound : str) (ys : list exchange),
    inbound <> [] ->
    (conversation E 0 0 ys inbound [] <->
     how (parse_bytes E (Some inbound) None) = Finished /\
     yielded (parse_bytes E (Some inbound) None) = ys /\
     forallb clean_exchange ys = true).
Proof.
  intros E wi ys Wi. split.
  - intro H. destruct (requests_parsed Wi H) as [K1 K2]. split; [exact K1|]. split; [exact K2|].
    eapply conversation_clean; eauto.
  - intros (H1 & H2 & H3). rewrite <- H2 in *. eapply requests_sound; eauto.
Qed.
Print Assumptions C59_clean_requests.

Theorem C59_clean_responses :
  forall (E : env) (outbound : str) (ys : list exchange),
    outbound <> [] ->
    (orphans_on_wire E 0 ys outbound <->
     how (parse_bytes E None (Some outbound)) = Finished /\
     yielded (parse_bytes E None (Some outbound)) = ys /\
     forallb clean_exchange ys = true).
Proof.
  intros E wo ys Wo. split.
  - intro H. destruct (responses_parsed Wo H) as [K1 K2]. split; [exact K1|]. split; [exact K2|].
    eapply orphans_clean; eauto.
  - intros (H1 & H2 & H3). rewrite <- H2 in *. eapply orphan_responses_sound; eauto.
Qed.
Print Assumptions C59_clean_responses.

Example C59_example :
  let r := parse_bytes env0 (Some two_in) (Some two_out) in
  two_in <> [] /\ two_out <> [] /\ conversation env0 0 0 (yielded r) two_in two_out /\
  List.length (yielded r) = 2%nat.
Proof.
  cbv zeta. split; [discriminate|]. split; [discriminate|]. split; [|reflexivity].
  apply C59_clean_runs_are_conversations; try discriminate. vm_compute. auto.
Qed.

Example C18_example :
  exists l, dialogue env0 0 0 l two_in two_out /\
            map (fun p => (rq_method (fst p), map rs_status (snd p))) l =
            [(s "POST", [100; 200]); (s "HEAD", [200])].
Proof.
  destruct C59_example as (_ & _ & C & _). cbv zeta in C.
  assert (forall ai ao ys wi wo, conversation env0 ai ao ys wi wo ->
    (exists l, ys = map (fun p => Exchange (Some (fst p)) (snd p)) l /\ Forall (fun p => snd p <> []) l) ->
    (forall p, ys <> p ++ [ComplaintBox (BoxPlain 1008)]) ->
    (forall req rs r, In (Exchange req rs) ys -> In r rs -> rs_status r = 100 \/ (rs_status r = 200 /\
       (forall q, req = Some q -> rq_method q <> s "CONNECT"))) ->
    exists l, dialogue env0 ai ao l wi wo /\ ys = map (fun p => Exchange (Some (fst p)) (snd p)) l) as G.
  { clear. induction 1 as [|? ? ys wo W H|ai ao req w ys ti H H2 IH|ai ao req wi rs wo f ys ti to H H1 Fo H2 IH
                 |ai ao req wi rs wo ti to H H1]; intros (l & El & Fl) N S.
    - exists []. split; [constructor|reflexivity].
    - destruct l; discriminate.
    - destruct l as [|[q rs] l]; [discriminate|]. injection El as <- <- El. inversion Fl. cbn in *. congruence.
    - destruct l as [|[q rs'] l]; [discriminate|]. injection El as <- <- El. inversion Fl as [|? ? F1 F2]; subst.
      destruct IH as (l' & D & E2).
      + exists l. auto.
      + intros p K. apply (N (Exchange (Some req) rs :: p)). cbn. now rewrite K.
      + intros q rs' r I J. apply (S q rs' r); [now right|assumption].
      + exists ((req, rs) :: l'). split; [eapply dl_step; eauto|]. cbn. now rewrite E2.
    - exfalso. pose proof (ends_http_switched H1) as EH. cbn in EH. unfold ends_http, last_response in EH.
      destruct (rev rs) as [|r rr] eqn:R; [discriminate|].
      destruct (S (Some req) rs r (or_introl eq_refl)) as [K|[K1 K2]].
      + apply in_rev. rewrite R. now left.
      + rewrite K in EH. cbn in EH. rewrite andb_false_r in EH. discriminate.
      + rewrite K1 in EH. cbn in EH. rewrite andb_true_r in EH. apply str_eqb_eq in EH.
        now apply (K2 req eq_refl). }
  destruct (G _ _ _ _ _ C) as (l & D & E).
  - match goal with |- exists l, ?y = _ /\ _ => let v := eval vm_compute in y in
      match v with [Exchange (Some ?a) ?b; Exchange (Some ?c) ?d] => exists [(a, b); (c, d)] end end.
    split; [vm_compute; reflexivity|]. repeat constructor; discriminate.
  - intros p K. apply (f_equal (@rev exchange)) in K. rewrite rev_app_distr in K. vm_compute in K. discriminate.
  - intros req rs r I J. vm_compute in I. destruct I as [I|[I|[]]]; injection I as <- <-; cbn in J.
    + destruct J as [<-|[<-|[]]]; [now left|right]. split; [reflexivity|]. intros q Q. injection Q as <-. discriminate.
    + destruct J as [<-|[]]. right. split; [reflexivity|]. intros q Q. injection Q as <-. discriminate.
  - exists l. split; [exact D|].
    assert (map (fun p => (rq_method (fst p), map rs_status (snd p))) l =
            flat_map (fun x => match x with Exchange (Some q) rs => [(rq_method q, map rs_status rs)] | _ => [] end)
              (map (fun p => Exchange (Some (fst p)) (snd p)) l)) as ->.
    { clear. induction l as [|p l IH]; [reflexivity|]. cbn. now rewrite IH. }
    rewrite <- E. vm_compute. reflexivity.
Qed.

(** * C19: chunked bodies *)

(** One chunk on the wire: the spelling of its size, blanks after it, an
    extension, whether the line ends in CR LF, the data, and whether the data
    are followed by CR LF. *)
Record piece := mkPiece {
  p_hex : str; p_blanks : str; p_ext : option str; p_crlf : bool; p_data : str; p_crlf2 : bool
}.

Definition piece_line (p : piece) : wline :=
  mkLine (p_hex p ++ p_blanks p ++ match p_ext p with Some x => 59 :: x | None => [] end) (p_crlf p).
Definition piece_wire (p : piece) : str := render_line (piece_line p) ++ p_data p ++ eol (p_crlf2 p).
Definition piece_ok (p : piece) (size : N) : Prop :=
  hexadecimal (p_hex p) size /\ Forall (fun c => is_blank c = true) (p_blanks p) /\ line_ok (piece_line p).

Lemma piece_chunk p size : piece_ok p size ->
  let c := mkChunk (p_hex p ++ p_blanks p) (p_ext p) (p_crlf p) (p_data p) (p_crlf2 p) in
  ~ In 59 (c_size c) /\ line_ok (c_line c) /\ chunk_size (c_size c) size /\
  c_line c = piece_line p /\ render_chunk c = piece_wire p.
Proof.
  intros (H1 & H2 & H3) c.
  assert (c_line c = piece_line p) as E.
  { unfold c_line, piece_line, c. cbn. now rewrite <- app_assoc. }
  split; [|split; [|split; [|split]]].
  - cbn. intro I. apply in_app_or in I. destruct I as [I|I].
    + apply hexadecimal_chars in H1. destruct H1 as [_ H1]. destruct (H1 _ I) as (e & D). unfold hexdigit in D. lia.
    + rewrite Forall_forall in H2. specialize (H2 _ I). discriminate.
  - now rewrite E.
  - cbn. now apply hex_size_complete.
  - exact E.
  - unfold render_chunk, piece_wire. now rewrite E.
Qed.

Theorem C19_chunked_body :
  forall (E : env) (meth target version : str) (es : list entry) (ids : list N) (heading : str)
         (c : str) (ps : list piece) (final : piece) (tr : list entry) (ids' : list N)
         (wtrailer following : str),
    request_heading_on_wire meth target version es ids heading ->
    transfer_codings E es [Some c] -> lower c = s "chunked" ->
    Forall (fun p => piece_ok p (lenN (p_data p)) /\ p_data p <> []) ps ->
    lenN (flat_map p_data ps) <= 1073741824 ->
    piece_ok final 0 -> block_on_wire tr ids' wtrailer ->
    exists r st',
      parse_request E (new_stream (heading ++ flat_map piece_wire ps ++
                                   render_line (piece_line final) ++ wtrailer ++ following)) =
        (Val (inl r), st') /\
      rest st' = following /\
      mbody (rq_msg r) = Body (flat_map p_data ps) /\ trailer (rq_msg r) = tr.
Proof.
  intros E meth target version es ids heading c ps final tr ids' wt following H T C F L Hf B.
  set (mk := fun p => mkChunk (p_hex p ++ p_blanks p) (p_ext p) (p_crlf p) (p_data p) (p_crlf2 p)).
  assert (flat_map piece_wire ps = flat_map render_chunk (map mk ps) /\
          flat_map p_data ps = flat_map c_data (map mk ps)) as [E1 E2].
  { clear - F. induction F as [|p ps [H1 H2] F [I1 I2]]; [auto|]. cbn [map flat_map].
    destruct (piece_chunk H1) as (_ & _ & _ & _ & K). rewrite <- K, I1, I2. auto. }
  destruct (piece_chunk Hf) as (F1 & F2 & F3 & F4 & F5).
  assert (chunked_on_wire (flat_map p_data ps) tr
            (flat_map chunk_notes (map mk ps) ++ line_notes (c_line (mk final)) ++ ids')
            (flat_map piece_wire ps ++ render_line (piece_line final) ++ wt)) as Cw.
  { exists (map mk ps), (mk final), ids', wt. rewrite E1, E2, <- F4. repeat split; auto; try apply F2.
    - apply Forall_map. eapply Forall_impl; [|exact F]. intros p [H1 H2].
      destruct (piece_chunk H1) as (K1 & K2 & K3 & K4 & K5). repeat split; auto; apply K2.
    - now rewrite <- E2. }
  set (ids2 := flat_map chunk_notes (map mk ps) ++ line_notes (c_line (mk final)) ++ ids') in *.
  set (r := mkRequest meth target version
              (mkMessage es tr (Body (flat_map p_data ps)) 0
                 (place_notes RequestHeading ids ++ place_notes ChunkedFraming ids2))).
  set (w2 := flat_map piece_wire ps ++ render_line (piece_line final) ++ wt) in *.
  assert (request_on_wire E 0 r (heading ++ w2)) as W.
  { exists es, (flat_map p_data ps), tr, ids, ids2, heading, w2. split; [exact H|]. split; [|split; reflexivity].
    eapply (@rqb_chunked E es []); [exact T|exists c; split; [reflexivity|apply ci_eqb_eq; exact C]|exact Cw|constructor]. }
  assert (rest (new_stream (heading ++ flat_map piece_wire ps ++ render_line (piece_line final) ++ wt ++ following)) =
          (heading ++ w2) ++ following) as R.
  { cbn [rest new_stream]. unfold w2. now rewrite <- !app_assoc. }
  destruct (@request_complete E _ _ (new_stream _) following W eq_refl R) as (st' & K1 & _ & K3).
  exists r, st'. split; [exact K1|]. split; [exact K3|]. split; reflexivity.
Qed.
Print Assumptions C19_chunked_body.

Definition chunked_head : str := crlf "POST / HTTP/1.1" ++ crlf "Transfer-Encoding: chunked" ++ crlf "".
Definition chunked_entries : list entry := [(s "Transfer-Encoding", s "chunked")].

Lemma chunked_head_wire :
  request_heading_on_wire (s "POST") (s "/") (s "HTTP/1.1") chunked_entries [] chunked_head.
Proof.
  apply (@write_heading_wire (s "POST") (s "/") (s "HTTP/1.1") chunked_entries).
  split; [cbn; intuition discriminate|]. split; [cbn; intuition discriminate|].
  split; [exists 49, 49; split; [reflexivity|lia]|].
  split; [split; [cbn; intuition discriminate|vm_compute; discriminate]|].
  repeat (constructor; [apply good_field_by; [vm_compute; reflexivity|vm_compute; discriminate]|]). constructor.
Qed.

Example C19_example :
  let p := mkPiece (s "0a") (s " ") (Some (s "x=y")) false (s "0123456789") true in
  let final := mkPiece (s "000") [] (Some []) true [] true in
  request_heading_on_wire (s "POST") (s "/") (s "HTTP/1.1") chunked_entries [] chunked_head /\
  transfer_codings env0 chunked_entries [Some (s "chunked")] /\
  piece_ok p (lenN (p_data p)) /\ piece_ok final 0 /\ block_on_wire [] [] (crlf "") /\
  piece_wire p = s "0a ;x=y" ++ [10] ++ crlf "0123456789".
Proof.
  cbv zeta. split; [apply chunked_head_wire|]. split; [apply te_value_iff; reflexivity|].
  split; [|split; [|split; [apply (@write_block []); constructor|reflexivity]]].
  - split; [|split].
    + apply (@hex_more [48] 0 97 10); [constructor|]; unfold hexdigit; lia.
    + repeat constructor.
    + split; [cbn; intuition discriminate|]. split; [|vm_compute; discriminate].
      intros _ y K. apply (f_equal (@rev N)) in K. rewrite rev_app_distr in K. vm_compute in K. discriminate.
  - split; [|split].
    + apply (@hex_more [48; 48] 0 48 0); [|unfold hexdigit; lia].
      apply (@hex_more [48] 0 48 0); [constructor|]; unfold hexdigit; lia.
    + constructor.
    + split; [cbn; intuition discriminate|]. split; [discriminate|vm_compute; discriminate].
Qed.

(** * C20: spellings of chunk sizes *)

(** Not every accepted spelling is hexadecimal digits: here "0x3" is. *)
Theorem C20_chunk_size_refuted :
  exists (size : str) (r : request) (st' : stream),
    (~ exists t blanks n, size = t ++ blanks /\ hexadecimal t n /\ Forall (fun c => is_blank c = true) blanks) /\
    parse_request env0 (new_stream (chunked_head ++ write_line size ++ crlf "abc" ++ crlf "0" ++ crlf "")) =
      (Val (inl r), st') /\
    mbody (rq_msg r) = Body (s "abc") /\ notes (rq_msg r) = [] /\ rest st' = [].
Proof.
  exists (s "0x3").
  match goal with |- exists r st', _ /\ ?x = _ /\ _ => let v := eval vm_compute in x in
    match v with (Val (inl ?r), ?st) => exists r, st end end.
  split; [|repeat split; vm_compute; reflexivity].
  intros (t & b & n & E & H & B). apply hexadecimal_chars in H. destruct H as [NE H].
  assert (In 120 (t ++ b)) as I by (rewrite <- E; cbn; auto).
  apply in_app_or in I. destruct I as [I|I].
  - destruct (H _ I) as (d & D). unfold hexdigit in D. lia.
  - rewrite Forall_forall in B. specialize (B _ I). discriminate.
Qed.
Print Assumptions C20_chunk_size_refuted.

(** A piece whose size is spelled in any way Python's [int(x, 16)] reads. *)
Definition spelled_ok (p : piece) (size : N) : Prop :=
  literal (p_hex p ++ p_blanks p) (Z.of_N size) /\ line_ok (piece_line p).

Lemma spelled_chunk p size : spelled_ok p size ->
  let c := mkChunk (p_hex p ++ p_blanks p) (p_ext p) (p_crlf p) (p_data p) (p_crlf2 p) in
  ~ In 59 (c_size c) /\ line_ok (c_line c) /\ chunk_size (c_size c) size /\
  c_line c = piece_line p /\ render_chunk c = piece_wire p.
Proof.
  intros (H1 & H3) c.
  assert (c_line c = piece_line p) as E.
  { unfold c_line, piece_line, c. cbn. now rewrite <- app_assoc. }
  apply chunk_literal in H1. split; [|split; [|split; [|split]]].
  - cbn. intro I. apply int16_chars in H1. rewrite Forall_forall in H1. destruct (H1 _ I) as [[d D]|[K|K]]; [unfold hexdigit in D; lia|cbn in K; intuition discriminate|discriminate].
  - now rewrite E.
  - exact H1.
  - exact E.
  - unfold render_chunk, piece_wire. now rewrite E.
Qed.

(** Full statement (refuted above): exactly the sizes that are [1*HEXDIG] and
    blanks are accepted.  Proved: exactly the numbers that Python's [int(x, 16)]
    reads ([literal], ChunkSizes.v) are.  They are accepted, with their value... *)
Theorem C20_chunk_size_accepted :
  forall (E : env) (meth target version : str) (es : list entry) (ids : list N) (heading : str)
         (c : str) (ps : list piece) (final : piece) (tr : list entry) (ids' : list N)
         (wtrailer following : str),
    request_heading_on_wire meth target version es ids heading ->
    transfer_codings E es [Some c] -> lower c = s "chunked" ->
    Forall (fun p => spelled_ok p (lenN (p_data p)) /\ p_data p <> []) ps ->
    lenN (flat_map p_data ps) <= 1073741824 ->
    spelled_ok final 0 -> block_on_wire tr ids' wtrailer ->
    exists r st',
      parse_request E (new_stream (heading ++ flat_map piece_wire ps ++
                                   render_line (piece_line final) ++ wtrailer ++ following)) =
        (Val (inl r), st') /\
      rest st' = following /\
      mbody (rq_msg r) = Body (flat_map p_data ps) /\ trailer (rq_msg r) = tr.
Proof.
  intros E meth target version es ids heading c ps final tr ids' wt following H T C F L Hf B.
  set (mk := fun p => mkChunk (p_hex p ++ p_blanks p) (p_ext p) (p_crlf p) (p_data p) (p_crlf2 p)).
  assert (flat_map piece_wire ps = flat_map render_chunk (map mk ps) /\
          flat_map p_data ps = flat_map c_data (map mk ps)) as [E1 E2].
  { clear - F. induction F as [|p ps [H1 H2] F [I1 I2]]; [auto|]. cbn [map flat_map].
    destruct (spelled_chunk H1) as (_ & _ & _ & _ & K). rewrite <- K, I1, I2. auto. }
  destruct (spelled_chunk Hf) as (F1 & F2 & F3 & F4 & F5).
  assert (chunked_on_wire (flat_map p_data ps) tr
            (flat_map chunk_notes (map mk ps) ++ line_notes (c_line (mk final)) ++ ids')
            (flat_map piece_wire ps ++ render_line (piece_line final) ++ wt)) as Cw.
  { exists (map mk ps), (mk final), ids', wt. rewrite E1, E2, <- F4. repeat split; auto; try apply F2.
    - apply Forall_map. eapply Forall_impl; [|exact F]. intros p [H1 H2].
      destruct (spelled_chunk H1) as (K1 & K2 & K3 & K4 & K5). repeat split; auto; apply K2.
    - now rewrite <- E2. }
  set (ids2 := flat_map chunk_notes (map mk ps) ++ line_notes (c_line (mk final)) ++ ids') in *.
  set (r := mkRequest meth target version
              (mkMessage es tr (Body (flat_map p_data ps)) 0
                 (place_notes RequestHeading ids ++ place_notes ChunkedFraming ids2))).
  set (w2 := flat_map piece_wire ps ++ render_line (piece_line final) ++ wt) in *.
  assert (request_on_wire E 0 r (heading ++ w2)) as W.
  { exists es, (flat_map p_data ps), tr, ids, ids2, heading, w2. split; [exact H|]. split; [|split; reflexivity].
    eapply (@rqb_chunked E es []); [exact T|exists c; split; [reflexivity|apply ci_eqb_eq; exact C]|exact Cw|constructor]. }
  assert (rest (new_stream (heading ++ flat_map piece_wire ps ++ render_line (piece_line final) ++ wt ++ following)) =
          (heading ++ w2) ++ following) as R.
  { cbn [rest new_stream]. unfold w2. now rewrite <- !app_assoc. }
  destruct (@request_complete E _ _ (new_stream _) following W eq_refl R) as (st' & K1 & _ & K3).
  exists r, st'. split; [exact K1|]. split; [exact K3|]. split; reflexivity.
Qed.
Print Assumptions C20_chunk_size_accepted.

Lemma parse_chunk_bad c cur st tail :
  ~ In 59 (c_size c) -> line_ok (c_line c) -> (forall z, ~ literal (c_size c) z) ->
  rest st = render_line (c_line c) ++ tail ->
  exists e st', parse_chunk cur st = (ParseErr e, st') /\ pe_pos e = pos st /\ rest st' = tail /\ sane st' = false.
Proof.
  intros H1 H2 H3 R. destruct (readline_complete H2 R) as (st1 & Q1 & Q2 & Q3).
  unfold parse_chunk. rewrite bind_tell, (bind_val _ Q1). cbv zeta. rewrite (partition_chunk H1).
  destruct (py_int16 (rstrip (c_size c))) as [z|] eqn:P.
  { apply chunk_literal in P. now apply H3 in P. }
  eexists _, _. split; [reflexivity|]. split; [reflexivity|]. split; [exact Q3|reflexivity].
Qed.

Lemma chunks_loop_bad bad cs : forall fuel acc st tail,
  Forall chunk_ok cs -> lenN acc + lenN (flat_map c_data cs) <= 1073741824 ->
  ~ In 59 (c_size bad) -> line_ok (c_line bad) -> (forall z, ~ literal (c_size bad) z) ->
  rest st = flat_map render_chunk cs ++ render_line (c_line bad) ++ tail ->
  (List.length (rest st) < fuel)%nat ->
  exists e st', chunks_loop fuel acc st = (ParseErr e, st') /\
    pe_pos e = pos st + lenN (flat_map render_chunk cs) /\ rest st' = tail /\ sane st' = false.
Proof.
  induction cs as [|c cs IH]; intros fuel acc st tail F L H1 H2 H3 R Fu;
    (destruct fuel as [|fuel]; [lia|]); cbn [chunks_loop].
  - cbn in R. destruct (@parse_chunk_bad bad (lenN acc) st tail H1 H2 H3 R) as (e & st1 & P1 & P2 & P3 & P4).
    exists e, st1. unfold bind. rewrite P1. cbn. rewrite N.add_0_r. auto.
  - inversion F as [|? ? Hc F']; subst. cbn [flat_map] in *. rewrite lenN_app in *.
    rewrite <- !app_assoc in R. assert (lenN acc + lenN (c_data c) <= 1073741824) as L' by lia.
    destruct (@parse_chunk_complete c (lenN acc) st _ Hc L' R) as (st1 & P1 & P2 & P3).
    rewrite (bind_val _ P1).
    destruct (IH fuel (acc ++ c_data c) st1 tail) as (e & st2 & K1 & K2 & K3 & K4); auto.
    + rewrite lenN_app. lia.
    + rewrite P3. rewrite R, app_length in Fu.
      assert (0 < List.length (render_chunk c))%nat.
      { apply pos_length. unfold render_chunk, render_line. destruct (text (c_line c)), (crlf_end (c_line c)); discriminate. }
      lia.
    + exists e, st2. rewrite K2, (mv_pos P2). split; [exact K1|]. split; [lia|auto].
Qed.

(** ... and after any correct chunks any other size is reported by 1005, at its
    own position.  For numbers below zero see C26. *)
Theorem C20_chunk_size_reported :
  forall (E : env) (meth target version : str) (es : list entry) (ids : list N) (heading : str)
         (c : str) (ps : list piece) (size : str) (ext : option str) (crlf_ : bool) (following : str),
    request_heading_on_wire meth target version es ids heading ->
    transfer_codings E es [Some c] -> lower c = s "chunked" ->
    Forall (fun p => spelled_ok p (lenN (p_data p)) /\ p_data p <> []) ps ->
    lenN (flat_map p_data ps) <= 1073741824 ->
    let line := mkLine (size ++ match ext with Some x => 59 :: x | None => [] end) crlf_ in
    ~ In 59 size -> line_ok line ->
    (forall z, ~ literal size z) ->
    exists r e st',
      parse_request E (new_stream (heading ++ flat_map piece_wire ps ++ render_line line ++ following)) =
        (Val (inl r), st') /\
      mbody (rq_msg r) = Unavail None /\
      In (mkNote 1005 (CtxError e)) (notes (rq_msg r)) /\
      pe_pos e = lenN heading + lenN (flat_map piece_wire ps) /\
      rest st' = following /\ sane st' = false.
Proof.
  intros E meth target version es ids heading c ps size ext b following H T C F L line N1 N2 X.
  set (mk := fun p => mkChunk (p_hex p ++ p_blanks p) (p_ext p) (p_crlf p) (p_data p) (p_crlf2 p)).
  assert (flat_map piece_wire ps = flat_map render_chunk (map mk ps) /\
          flat_map p_data ps = flat_map c_data (map mk ps)) as [E1 E2].
  { clear - F. induction F as [|p ps [H1 H2] F [I1 I2]]; [auto|]. cbn [map flat_map].
    destruct (spelled_chunk H1) as (_ & _ & _ & _ & K). rewrite <- K, I1, I2. auto. }
  assert (Forall chunk_ok (map mk ps)) as Fc.
  { apply Forall_map. eapply Forall_impl; [|exact F]. intros p [H1 H2].
    destruct (spelled_chunk H1) as (K1 & K2 & K3 & K4 & K5). repeat split; auto; apply K2. }
  set (bad := mkChunk size ext b [] true).
  set (data := heading ++ flat_map piece_wire ps ++ render_line line ++ following).
  destruct (@request_heading_complete meth target version es ids heading (new_stream data) _ H eq_refl eq_refl)
    as (st1 & Q1 & Q2 & Q3).
  rewrite E1 in Q3. rewrite E2 in L.
  destruct (@chunks_loop_bad bad (map mk ps) (S (List.length (rest st1))) [] st1 following Fc L N1 N2 X Q3 (Nat.lt_succ_diag_r _))
    as (e & st2 & K1 & K2 & K3 & K4).
  eexists _, e, st2. split.
  { unfold parse_request. fold data. rewrite Q1. unfold parse_request_body. cbn [rq_msg entries].
    apply te_value_iff in T. rewrite T. cbn [rev app]. unfold coding_is.
    assert (ci_eqb c (s "chunked") = true) as -> by (apply ci_eqb_eq; exact C).
    unfold bind at 1 2. unfold parse_chunked, chunked_framing, parse_chunks. unfold bind at 1. rewrite K1.
    unfold ret. cbn [decode_codings]. reflexivity. }
  cbn [set_rq_msg rq_msg set_body mbody notes msg_complain]. split; [reflexivity|].
  split; [|split; [rewrite K2, (mv_pos Q2), E1; cbn [pos new_stream]; lia|auto]].
  unfold add_note. destruct (existsb _ _) eqn:X5.
  - apply existsb_exists in X5. destruct X5 as (y & _ & Y). unfold note_eqb in Y. cbn in Y.
    destruct (n_ctx y); rewrite andb_false_r in Y; discriminate.
  - apply in_or_app. right. now left.
Qed.
Print Assumptions C20_chunk_size_reported.

(** Sizes that are not numbers, and sizes that are. *)
Lemma not_literal x : py_int16 (rstrip x) = None -> forall z, ~ literal x z.
Proof. intros H z L. apply chunk_literal in L. congruence. Qed.

Example C20_example :
  Forall (fun size => (forall z, ~ literal size z) /\ line_ok (mkLine size true))
    [s "3g"; s ""; s "1__0"; s "_1"; s "1_"; s "0x"; s "+-1"; s "1 0"; s "x1"; s "0x__1"] /\
  (literal (s "0x3") 3 /\ literal (s " +0X_1f ") 31 /\ literal (s "1_0") 16 /\ literal (s "-0") 0 /\
   spelled_ok (mkPiece (s "+0x_3") [] (Some (s "a")) true (s "abc") true) 3).
Proof.
  split.
  - repeat (constructor; [split; [apply not_literal; vm_compute; reflexivity|split; [cbn; intuition discriminate|split; [discriminate|vm_compute; discriminate]]]|]). constructor.
  - split; [apply literal_iff; vm_compute; reflexivity|]. split; [apply literal_iff; vm_compute; reflexivity|]. split; [apply literal_iff; vm_compute; reflexivity|]. split; [apply literal_iff; vm_compute; reflexivity|].
    split; [apply literal_iff; vm_compute; reflexivity|]. split; [cbn; intuition discriminate|split; [discriminate|vm_compute; discriminate]].
Qed.
