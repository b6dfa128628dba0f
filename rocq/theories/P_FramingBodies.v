(** C21-C27: bodies, protocol switches, attribution of notices, limits,
    exceptions and folded fields. *)
From Verif Require Import Base Stream StreamProofs Framing FramingBasics FramingRuns FramingTop
  FramingSpec FramingWire FramingMessages FramingConv FramingOrigin FramingEnds ChunkSizes
  P_FramingRuns P_FramingWire.
From Coq Require Import ZifyBool ZifyNat ZifyN.
Unset Strict Implicit.

(** * C21: bodies delimited by Content-Length *)

(** What becomes of [data] (the bytes after the heading) when the length is
    [n]: [m] is the message, [left] the bytes not consumed, [ok] whether parsing
    of the stream goes on, [notes0] the notices about the heading. *)
Definition length_delimited (n : N) (data : str) (notes0 : list note)
    (m : message) (left : str) (ok : bool) : Prop :=
  (n <= 1073741824 -> n <= lenN data ->
     exists b, data = b ++ left /\ lenN b = n /\ mbody m = Body b /\ notes m = notes0 /\ ok = true) /\
  (n <= 1073741824 -> lenN data < n ->
     left = [] /\ mbody m = Unavail None /\ ok = false /\
     exists e, notes m = notes0 ++ [mkNote 1004 (CtxError e)]) /\
  (1073741824 < n ->
     left = data /\ mbody m = Unavail None /\ ok = false /\
     notes m = notes0 ++ [mkNote 1298 (CtxSize ContentLengthField (Z.of_N n))]).

Lemma add_error_note id e l : add_note (mkNote id (CtxError e)) l = l ++ [mkNote id (CtxError e)].
Proof.
  unfold add_note. destruct (existsb _ _) eqn:X; [|reflexivity].
  apply existsb_exists in X. destruct X as (y & _ & Y). unfold note_eqb in Y. cbn in Y.
  destruct (n_ctx y); rewrite andb_false_r in Y; discriminate.
Qed.

Lemma add_size_note n p ids :
  add_note (mkNote 1298 (CtxSize ContentLengthField n)) (place_notes p ids) =
  place_notes p ids ++ [mkNote 1298 (CtxSize ContentLengthField n)].
Proof.
  unfold add_note. destruct (existsb _ _) eqn:X; [|reflexivity].
  apply existsb_exists in X. destruct X as (y & I & Y). unfold place_notes in I.
  apply in_map_iff in I. destruct I as (id & <- & _). unfold note_eqb in Y. cbn in Y.
  rewrite andb_false_r in Y. discriminate.
Qed.

Lemma process_length n m st :
  sane st = true -> (exists p ids, notes m = place_notes p ids) ->
  exists m' st', process_content_length (Some n) m st = (Val m', st') /\
    entries m' = entries m /\ trailer m' = trailer m /\
    length_delimited n (rest st) (notes m) m' (rest st') (sane st').
Proof.
  intros S (p & ids & Nm). unfold process_content_length, length_delimited.
  destruct (MAX_BODY_SIZE <? Z.of_N n)%Z eqn:L; unfold MAX_BODY_SIZE in L.
  { eexists _, _. split; [reflexivity|]. split; [reflexivity|]. split; [reflexivity|].
    split; [lia|]. split; [lia|]. intros _. split; [reflexivity|]. split; [reflexivity|]. split; [reflexivity|].
    cbn [msg_complain notes set_body]. rewrite Nm. apply add_size_note. }
  destruct (read (Z.of_N n) st) as [o st1] eqn:R. apply read_cases in R.
  destruct R as [(K & _)|(r & K1 & (C1 & C2) & K3 & K4 & K5 & K6 & K7 & K8)]; [lia|].
  assert (lenN (rest st) = lenN r + lenN (rest st1)) as LR by (rewrite C1; apply lenN_app).
  specialize (K6 (N2Z.is_nonneg n)). specialize (K7 (N2Z.is_nonneg n)). rewrite N2Z.id in *.
  destruct K8 as [(-> & K8 & K9)|(e & -> & K8 & _ & _ & K9 & K10)].
  - eexists _, _. split; [reflexivity|]. split; [reflexivity|]. split; [reflexivity|].
    assert (lenN r = n) as Lr.
    { destruct (N.eq_dec n 0); [lia|]. apply K9. lia. }
    split; [|split; [intros _ K; lia|lia]]. intros _ _. exists r.
    split; [assumption|]. split; [assumption|]. split; [reflexivity|]. split; [reflexivity|]. congruence.
  - eexists _, _. split; [reflexivity|]. split; [reflexivity|]. split; [reflexivity|].
    specialize (K7 K10).
    split; [intros _ K; rewrite K7 in LR; cbn [lenN] in LR; lia|]. split; [|lia].
    intros _ _. split; [assumption|]. split; [reflexivity|]. split; [assumption|].
    exists e. cbn [msg_complain notes set_body]. apply add_error_note.
Qed.

Theorem C21_request_content_length :
  forall (E : env) (meth target version : str) (es : list entry) (ids : list N) (heading data : str) (n : N),
    request_heading_on_wire meth target version es ids heading ->
    transfer_codings E es [] -> content_length es n ->
    exists m st',
      parse_request E (new_stream (heading ++ data)) = (Val (inl (mkRequest meth target version m)), st') /\
      entries m = es /\ trailer m = [] /\
      length_delimited n data (place_notes RequestHeading ids) m (rest st') (sane st').
Proof.
  intros E meth target version es ids heading data n H T C.
  destruct (@request_heading_complete meth target version es ids heading (new_stream (heading ++ data)) data H eq_refl eq_refl)
    as (st1 & Q1 & Q2 & Q3).
  apply te_value_iff in T. apply cl_ok_iff in C.
  assert (sane st1 = true) as S by (rewrite (mv_sane Q2); reflexivity).
  set (m0 := mkMessage es [] (Unavail None) (pos (new_stream (heading ++ data))) (place_notes RequestHeading ids)) in *.
  destruct (n =? 0) eqn:N0.
  - apply N.eqb_eq in N0. subst n. exists (set_body (Body []) m0), st1. split.
    { unfold parse_request. rewrite Q1. unfold parse_request_body. cbn [rq_msg entries m0]. rewrite T, C. reflexivity. }
    split; [reflexivity|]. split; [reflexivity|]. split; [|split; intros; lia].
    intros _ _. exists []. split; [symmetry; exact Q3|]. auto.
  - destruct (@process_length n m0 st1 S) as (m' & st2 & P1 & P2 & P3 & P4); [exists RequestHeading, ids; reflexivity|].
    exists m', st2. split.
    { unfold parse_request. rewrite Q1. unfold parse_request_body. cbn [rq_msg entries m0]. rewrite T, C. cbn [rev].
      rewrite N0. now rewrite (bind_val _ P1). }
    rewrite Q3 in P4. auto.
Qed.
Print Assumptions C21_request_content_length.

(** One final response on the outbound stream, as [_parse_responses] sees it. *)
Lemma one_response E req version status reason es ids heading data :
  response_heading_on_wire version status reason es ids heading ->
  ~ (100 <= status <= 199 /\ status <> 101) ->
  let m0 := mkMessage es [] (Unavail None) 0 (place_notes ResponseHeading ids) in
  exists st1, rest st1 = data /\ sane st1 = true /\ pending st1 = [] /\ settled st1 /\ pos st1 = lenN heading /\
    forall m st', parse_response_body E req status m0 st1 = (Val m, st') ->
      parse_responses E req (new_stream (heading ++ data)) =
        (Val ([mkResponse version status reason m], None), st').
Proof.
  intros H NI m0.
  destruct (@response_heading_complete version status reason es ids heading (new_stream (heading ++ data)) data H eq_refl eq_refl)
    as (st1 & Q1 & Q2 & Q3).
  exists st1. split; [assumption|]. split; [rewrite (mv_sane Q2); reflexivity|].
  split; [rewrite (mv_pending Q2); reflexivity|]. split; [eapply moved_settled; eauto|].
  split; [rewrite (mv_pos Q2); reflexivity|].
  intros m st' B. unfold parse_responses. cbn [responses_loop].
  replace (good (new_stream (heading ++ data))) with true by reflexivity. rewrite Q1. cbn [rs_status rs_msg].
  change (pos (new_stream (heading ++ data))) with 0. fold m0. rewrite (bind_val _ B). cbv zeta.
  assert (negb (informational status) || (status =? 101) = true) as -> by (unfold informational; lia).
  reflexivity.
Qed.

Theorem C21_response_content_length :
  forall (E : env) (req : option request) (version : str) (status : N) (reason : str)
         (es : list entry) (ids : list N) (heading data : str) (n : N),
    response_heading_on_wire version status reason es ids heading ->
    ~ switches req status -> ~ bodiless req status ->
    transfer_codings E es [] -> content_length es n ->
    exists m st',
      parse_responses E req (new_stream (heading ++ data)) =
        (Val ([mkResponse version status reason m], None), st') /\
      entries m = es /\ trailer m = [] /\
      length_delimited n data (place_notes ResponseHeading ids) m (rest st') (sane st').
Proof.
  intros E req version status reason es ids heading data n H NS NB T C.
  assert (~ (100 <= status <= 199 /\ status <> 101)) as NI.
  { intros [K _]. apply NB. now left. }
  destruct (@one_response E req version status reason es ids heading data H NI) as (st1 & Q1 & Q2 & _ & _ & _ & Q3).
  set (m0 := mkMessage es [] (Unavail None) 0 (place_notes ResponseHeading ids)) in *.
  apply te_value_iff in T. apply cl_ok_iff in C.
  destruct (@process_length n m0 st1 Q2) as (m' & st2 & P1 & P2 & P3 & P4); [exists ResponseHeading, ids; reflexivity|].
  exists m', st2. rewrite Q1 in P4. split; [|auto]. apply Q3.
  unfold parse_response_body. rewrite (switches_iff req status), not_true_iff_false, orb_false_iff in NS.
  destruct NS as [-> ->]. rewrite (bodiless_iff req status), not_true_iff_false in NB. rewrite NB.
  cbn [entries m0]. rewrite T, C. exact P1.
Qed.
Print Assumptions C21_response_content_length.

(** A Content-Length that is not a number: no body is taken, and the stream is
    given up. *)
Theorem C21_malformed_content_length :
  forall (E : env) (meth target version : str) (es : list entry) (ids : list N) (heading data : str),
    request_heading_on_wire meth target version es ids heading ->
    transfer_codings E es [] -> ~ absent "Content-Length" es -> (forall n, ~ content_length es n) ->
    exists m st',
      parse_request E (new_stream (heading ++ data)) = (Val (inl (mkRequest meth target version m)), st') /\
      entries m = es /\ mbody m = Unavail None /\ rest st' = data /\ sane st' = false.
Proof.
  intros E meth target version es ids heading data H T A C.
  destruct (@request_heading_complete meth target version es ids heading (new_stream (heading ++ data)) data H eq_refl eq_refl)
    as (st1 & Q1 & Q2 & Q3).
  apply te_value_iff in T. rewrite cl_absent_iff in A.
  destruct (cl_value es) as [| |n] eqn:V; [congruence| |apply cl_ok_iff in V; now apply C in V].
  eexists _, (set_sane false st1). split.
  { unfold parse_request. rewrite Q1. unfold parse_request_body. cbn [rq_msg entries]. rewrite T, V. reflexivity. }
  auto.
Qed.
Print Assumptions C21_malformed_content_length.

Definition cl_head (v : string) : str :=
  write_heading (s "POST") (s "/") (s "HTTP/1.1") [(s "Content-Length", s v)].

Example C21_example :
  request_heading_on_wire (s "POST") (s "/") (s "HTTP/1.1") [(s "Content-Length", s "5")] [] (cl_head "5") /\
  transfer_codings env0 [(s "Content-Length", s "5")] [] /\
  content_length [(s "Content-Length", s "5")] 5 /\
  (forall n, ~ content_length [(s "Content-Length", s "5x")] n) /\
  ~ absent "Content-Length" [(s "Content-Length", s "5x")].
Proof.
  split; [|split; [apply te_value_iff; reflexivity|split; [apply cl_ok_iff; reflexivity|split]]].
  - apply write_heading_wire. split; [cbn; intuition discriminate|]. split; [cbn; intuition discriminate|].
    split; [exists 49, 49; split; [reflexivity|lia]|].
    split; [split; [cbn; intuition discriminate|vm_compute; discriminate]|].
    repeat (constructor; [apply good_field_by; [vm_compute; reflexivity|vm_compute; discriminate]|]). constructor.
  - intros n K. apply cl_ok_iff in K. discriminate.
  - rewrite cl_absent_iff. discriminate.
Qed.

(** * C22: how the body of a response is delimited *)

(** Protocol switches and the responses that have no body consume nothing after
    the heading, whatever the header fields say. *)
Theorem C22_no_body :
  forall (E : env) (req : option request) (version : str) (status : N) (reason : str)
         (es : list entry) (ids : list N) (heading data : str),
    response_heading_on_wire version status reason es ids heading ->
    switches req status \/ (bodiless req status /\ ~ (100 <= status <= 199)) ->
    exists m st',
      parse_responses E req (new_stream (heading ++ data)) =
        (Val ([mkResponse version status reason m], None), st') /\
      entries m = es /\ trailer m = [] /\ mbody m = Body [] /\ rest st' = data /\
      (sane st' = false <-> switches req status).
Proof.
  intros E req version status reason es ids heading data H B.
  assert (~ (100 <= status <= 199 /\ status <> 101)) as NI.
  { destruct B as [[->|[B _]]|[_ B]]; lia. }
  destruct (@one_response E req version status reason es ids heading data H NI) as (st1 & Q1 & Q2 & _ & _ & _ & Q3).
  set (m0 := mkMessage es [] (Unavail None) 0 (place_notes ResponseHeading ids)) in *.
  destruct ((status =? 101) || (method_is "CONNECT" req && successful status)) eqn:Sw.
  - pose proof Sw as Sw'. apply switches_iff in Sw'. unfold parse_response_body in Q3.
    destruct (status =? 101).
    + eexists _, _. split; [apply Q3; reflexivity|]. repeat split; auto.
    + cbn in Sw. rewrite Sw in Q3. eexists _, _. split; [apply Q3; reflexivity|]. repeat split; auto.
  - assert (~ switches req status) as NS by (rewrite switches_iff; congruence).
    destruct B as [B|[B _]]; [contradiction|]. unfold parse_response_body in Q3.
    apply orb_false_iff in Sw. destruct Sw as [S1 S2]. rewrite S1, S2 in Q3.
    apply bodiless_iff in B. rewrite B in Q3.
    eexists _, _. split; [apply Q3; reflexivity|]. cbn [set_body entries trailer mbody]. repeat split; auto; congruence.
Qed.
Print Assumptions C22_no_body.

(** An interim response has no body either: the bytes after its heading are the
    next response. *)
Theorem C22_interim :
  forall (E : env) (req : option request) (version : str) (status : N) (reason : str)
         (es : list entry) (ids : list N) (heading : str) (rs : list response) (ws following : str) (f : finish),
    response_heading_on_wire version status reason es ids heading ->
    100 <= status <= 199 -> status <> 101 ->
    responses_on_wire E req (lenN heading) rs ws f -> (f = Closed -> following = []) ->
    exists st',
      parse_responses E req (new_stream (heading ++ ws ++ following)) =
        (Val (mkResponse version status reason
                (mkMessage es [] (Body []) 0 (place_notes ResponseHeading ids)) :: rs, None), st') /\
      rest st' = following.
Proof.
  intros E req version status reason es ids heading rs ws following f H I N W F.
  set (r := mkResponse version status reason (mkMessage es [] (Body []) 0 (place_notes ResponseHeading ids))).
  assert (response_on_wire E req 0 r heading false) as R0.
  { exists es, [], [], ids, [], heading, []. split; [exact H|]. split.
    - apply rsb_none; [|now left]. intros [K|[K _]]; cbn in K; lia.
    - split; [now rewrite app_nil_r|]. rewrite place_notes_nil, app_nil_r. reflexivity. }
  assert (responses_on_wire E req 0 (r :: rs) (heading ++ ws) f) as R1 by (eapply row_interim; eauto).
  assert (ready (new_stream ((heading ++ ws) ++ following)) 0 ((heading ++ ws) ++ following)) as Rd.
  { apply ready_new. apply response_wire_pos in R0. destruct heading; [congruence|discriminate]. }
  assert (f <> Switched -> follows f following) as Fl by (destruct f; cbn; auto; congruence).
  destruct (@responses_complete E req 0 _ _ f R1 (S (List.length ((heading ++ ws) ++ following))) [] _ following Rd Fl
              (Nat.lt_succ_diag_r _)) as (st' & K1 & K2).
  rewrite <- app_assoc in K1. unfold parse_responses. cbn [rest new_stream].
  destruct f; (eexists; split; [exact K1|]); try exact (rd_rest K2).
Qed.
Print Assumptions C22_interim.

(** Transfer-Encoding takes precedence over Content-Length. *)
Theorem C22_chunked :
  forall (E : env) (req : option request) (version : str) (status : N) (reason : str)
         (es : list entry) (ids ids2 : list N) (heading w following : str)
         (codings : list (option str)) (c : option str) (payload body : str) (tr : list entry),
    response_heading_on_wire version status reason es ids heading ->
    ~ switches req status -> ~ bodiless req status ->
    transfer_codings E es (codings ++ [c]) -> is_chunked c ->
    chunked_on_wire payload tr ids2 w -> decodes E (rev codings) payload body ->
    exists m st',
      parse_responses E req (new_stream (heading ++ w ++ following)) =
        (Val ([mkResponse version status reason m], None), st') /\
      entries m = es /\ trailer m = tr /\ mbody m = Body body /\ rest st' = following /\ sane st' = true.
Proof.
  intros E req version status reason es ids ids2 heading w following codings c payload body tr H NS NB T C W D.
  assert (~ (100 <= status <= 199 /\ status <> 101)) as NI by (intros [K _]; apply NB; now left).
  destruct (@one_response E req version status reason es ids heading (w ++ following) H NI)
    as (st1 & Q1 & Q2 & Q4 & Q5 & _ & Q3).
  set (m0 := mkMessage es [] (Unavail None) 0 (place_notes ResponseHeading ids)) in *.
  assert (response_body_on_wire E req status es body tr ids2 w false) as B by (eapply rsb_chunked; eauto).
  assert (fresh_notes m0) as Fr by (intro id; apply heading_notes_fresh).
  destruct (@response_body_complete E req status es body tr ids2 w false m0 st1 following B) as (st2 & K1 & K2 & K3);
    auto; [discriminate|].
  eexists _, st2. split; [apply Q3; exact K1|]. repeat split; auto. rewrite (mv_sane K2). exact Q2.
Qed.
Print Assumptions C22_chunked.

Theorem C22_unchunked_coding :
  forall (E : env) (req : option request) (version : str) (status : N) (reason : str)
         (es : list entry) (ids : list N) (heading data : str)
         (codings : list (option str)) (c : option str),
    response_heading_on_wire version status reason es ids heading ->
    ~ switches req status -> ~ bodiless req status ->
    transfer_codings E es (codings ++ [c]) -> ~ is_chunked c ->
    exists m st',
      parse_responses E req (new_stream (heading ++ data)) =
        (Val ([mkResponse version status reason m], None), st') /\
      entries m = es /\ rest st' = [] /\
      (forall b, decodes E (rev (codings ++ [c])) data b -> mbody m = Body b).
Proof.
  intros E req version status reason es ids heading data codings c H NS NB T C.
  assert (~ (100 <= status <= 199 /\ status <> 101)) as NI by (intros [K _]; apply NB; now left).
  destruct (@one_response E req version status reason es ids heading data H NI)
    as (st1 & Q1 & Q2 & Q4 & Q5 & _ & Q3).
  set (m0 := mkMessage es [] (Unavail None) 0 (place_notes ResponseHeading ids)) in *.
  apply te_value_iff in T. unfold parse_response_body in Q3.
  rewrite (switches_iff req status), not_true_iff_false, orb_false_iff in NS.
  destruct NS as [S1 S2]. rewrite S1, S2 in Q3. rewrite (bodiless_iff req status), not_true_iff_false in NB. rewrite NB in Q3.
  cbn [entries m0] in Q3. rewrite T, rev_app_distr in Q3. cbn [rev app] in Q3.
  assert (coding_is "chunked" c = false) as Cf.
  { apply not_true_iff_false. intro K. apply C. unfold coding_is in K. destruct c as [x|]; [|discriminate].
    exists x. auto. }
  rewrite Cf in Q3. destruct (read (-1) st1) as [o st2] eqn:R. pose proof R as R'. apply read_cases in R'.
  destruct R' as [(K & _)|(r & K1 & (C1 & C2) & K3 & K4 & K5 & _ & _ & K8)]; [lia|].
  destruct K8 as [(-> & K8 & K9)|(e & _ & _ & _ & _ & K9 & _)]; [|lia].
  rewrite (K5 eq_refl), app_nil_r, Q1 in C1.
  eexists _, st2. split; [apply Q3; rewrite (bind_val _ R); reflexivity|].
  split; [|split; [auto|]].
  - change (entries (decode_codings E (c :: rev codings) (set_body (Body r) m0)) = es).
    destruct (decode_codings_same E (c :: rev codings) (set_body (Body r) m0)) as [_ K]. exact K.
  - intros b D. rewrite rev_app_distr in D. cbn [rev app] in D. subst r.
    change (mbody (decode_codings E (c :: rev codings) (set_body (Body data) m0)) = Body b).
    rewrite (decode_codings_complete D (m := set_body (Body data) m0) eq_refl). reflexivity.
Qed.
Print Assumptions C22_unchunked_coding.

(** With neither field the body is everything that follows. *)
Theorem C22_until_close :
  forall (E : env) (req : option request) (version : str) (status : N) (reason : str)
         (es : list entry) (ids : list N) (heading data : str),
    response_heading_on_wire version status reason es ids heading ->
    ~ switches req status -> ~ bodiless req status ->
    transfer_codings E es [] -> absent "Content-Length" es ->
    exists st',
      parse_responses E req (new_stream (heading ++ data)) =
        (Val ([mkResponse version status reason
                 (mkMessage es [] (Body data) 0 (place_notes ResponseHeading ids))], None), st') /\
      rest st' = [].
Proof.
  intros E req version status reason es ids heading data H NS NB T A.
  assert (~ (100 <= status <= 199 /\ status <> 101)) as NI by (intros [K _]; apply NB; now left).
  destruct (@one_response E req version status reason es ids heading data H NI)
    as (st1 & Q1 & Q2 & Q4 & Q5 & _ & Q3).
  set (m0 := mkMessage es [] (Unavail None) 0 (place_notes ResponseHeading ids)) in *.
  assert (response_body_on_wire E req status es data [] [] data true) as B by (apply rsb_close; auto).
  assert (fresh_notes m0) as Fr by (intro id; apply heading_notes_fresh).
  assert (rest st1 = data ++ []) as R by (now rewrite app_nil_r).
  destruct (@response_body_complete E req status es data [] [] data true m0 st1 [] B) as (st2 & K1 & K2 & K3); auto.
  exists st2. split; [|assumption]. rewrite (Q3 _ _ K1). rewrite place_notes_nil, app_nil_r. reflexivity.
Qed.
Print Assumptions C22_until_close.

Definition head_request : request :=
  mkRequest (s "HEAD") (s "/") (s "HTTP/1.1") (mkMessage [] [] (Body []) 0 []).
Definition write_status (code : string) (es : list entry) : str :=
  write_line (s "HTTP/1.1 " ++ s code ++ s " OK") ++ write_fields es ++ write_line [].

Lemma status_wire d1 d2 d3 code es :
  s code = [d1; d2; d3] -> 48 <= d1 <= 57 -> 48 <= d2 <= 57 -> 48 <= d3 <= 57 -> Forall good_field es ->
  response_heading_on_wire (s "HTTP/1.1") (10 * (10 * (d1 - 48) + (d2 - 48)) + (d3 - 48)) (s "OK") es []
    (write_status code es).
Proof.
  intros Ec D1 D2 D3 F. split; [exists 49, 49; split; [reflexivity|lia]|].
  exists [d1; d2; d3], (mkLine (s "HTTP/1.1 " ++ s code ++ s " OK") true), [], (write_fields es ++ write_line []).
  split; [reflexivity|].
  split; [apply (@dec_more [d1; d2]); [apply (@dec_more [d1]); [constructor|]|]; assumption|].
  split; [rewrite Ec; reflexivity|].
  split; [|split; [now apply write_block|auto]].
  apply fits_line. rewrite Ec. split; [|cbn; lia].
  intro K. apply in_app_or in K. destruct K as [K|K]; [cbn in K; intuition discriminate|].
  apply in_app_or in K. destruct K as [K|K]; [|cbn in K; intuition discriminate].
  cbn in K. lia.
Qed.

Example C22_example :
  let es := [(s "Content-Length", s "12345"); (s "Transfer-Encoding", s "chunked")] in
  response_heading_on_wire (s "HTTP/1.1") 200 (s "OK") es [] (write_status "200" es) /\
  bodiless (Some head_request) 200 /\ ~ switches (Some head_request) 200 /\
  ~ bodiless None 200 /\ ~ switches None 200 /\
  transfer_codings env0 es ([] ++ [Some (s "chunked")]) /\ is_chunked (Some (s "chunked")).
Proof.
  cbv zeta. split; [|repeat split].
  - apply (@status_wire 50 48 48); try reflexivity; try lia.
    repeat (constructor; [apply good_field_by; [vm_compute; reflexivity|vm_compute; discriminate]|]). constructor.
  - right. right. right. exists head_request. auto.
  - rewrite switches_iff. vm_compute. discriminate.
  - rewrite bodiless_iff. vm_compute. discriminate.
  - rewrite switches_iff. vm_compute. discriminate.
  - apply te_value_iff. reflexivity.
  - exists (s "chunked"). split; reflexivity.
Qed.

(** * C23: nothing is parsed after a protocol switch *)

Theorem C23_stops_after_switch :
  forall (E : env) (inbound outbound : option str) (before after : list exchange)
         (req : option request) (rs rs' : list response) (r : response),
    yielded (parse_bytes E inbound outbound) = before ++ Exchange req (rs ++ r :: rs') :: after ->
    switches req (rs_status r) ->
    rs' = [] /\
    Forall (fun x => exists a, x = ComplaintBox (BoxOffset 1007 a) \/ x = ComplaintBox (BoxOffset 1010 a)) after.
Proof.
  intros E i o before after req rs rs' r H S. split.
  - pose proof (run_grouped E i o) as G. fold (parse_bytes E i o) in G. rewrite H in G.
    apply Forall_app in G. destruct G as [_ G]. inversion G as [|? ? G1 _]; subst. cbn in G1.
    destruct rs' as [|r2 rs']; [reflexivity|].
    rewrite removelast_app in G1 by discriminate. apply Forall_app in G1. destruct G1 as [_ G1].
    inversion G1 as [|? ? [K1 K2] _]; subst. destruct S as [S|[S _]]; lia.
  - eapply run_stops; [exact H|]. exists r. split; [|exact S]. apply in_or_app. right. now left.
Qed.
Print Assumptions C23_stops_after_switch.

Definition connect_in : str := crlf "CONNECT x:1 HTTP/1.1" ++ crlf "" ++ crlf "GET / HTTP/1.1" ++ crlf "".
Definition connect_out : str :=
  crlf "HTTP/1.1 100 Continue" ++ crlf "" ++ crlf "HTTP/1.1 200 OK" ++ crlf "" ++ crlf "HTTP/1.1 200 OK" ++ crlf "".

Example C23_example :
  exists req r1 r2,
    yielded (parse_bytes env0 (Some connect_in) (Some connect_out)) =
      [] ++ Exchange req ([r1] ++ [r2]) :: [ComplaintBox (BoxOffset 1007 24); ComplaintBox (BoxOffset 1010 44)] /\
    switches req (rs_status r2).
Proof.
  match goal with |- exists a b c, ?y = _ /\ _ => let v := eval vm_compute in y in
    match v with Exchange ?a [?b; ?c] :: _ => exists a, b, c end end.
  split; [vm_compute; reflexivity|]. apply switches_iff. reflexivity.
Qed.

(** * C24: notices belong to the message in whose bytes they arose *)

Definition about_heading (n : note) : Prop :=
  n_ctx n = CtxPlace RequestHeading \/ n_ctx n = CtxPlace ResponseHeading.

(** [m'] has the notices of [m] and perhaps some that are not about a heading. *)
Definition appends (m m' : message) : Prop :=
  exists more, notes m' = notes m ++ more /\ Forall (fun n => ~ about_heading n) more.

Lemma appends_refl m m' : notes m' = notes m -> appends m m'.
Proof. intro H. exists []. rewrite app_nil_r. auto. Qed.

Lemma appends_trans a b c : appends a b -> appends b c -> appends a c.
Proof.
  intros (x & X1 & X2) (y & Y1 & Y2). exists (x ++ y). rewrite Y1, X1, <- app_assoc. split; [reflexivity|].
  apply Forall_app. auto.
Qed.

Lemma appends_note n m : ~ about_heading n -> appends m (msg_complain n m).
Proof.
  intro H. unfold msg_complain, add_note. destruct (existsb _ _).
  - now apply appends_refl.
  - exists [n]. auto.
Qed.

Ltac not_heading := unfold about_heading; cbn; intuition discriminate.

Lemma dump_appends p m st m' st' :
  p = ChunkedFraming -> dump_complaints p m st = (Val m', st') -> appends m m'.
Proof.
  intros -> H. unfold dump_complaints in H. injection H as <- _.
  generalize (pending st) as ids. intro ids. revert m. induction ids as [|id ids IH]; intro m; [now apply appends_refl|].
  cbn. eapply appends_trans; [|apply IH]. apply appends_note. not_heading.
Qed.

Lemma chunked_appends m st m' st' : parse_chunked m st = (Val m', st') -> appends m m'.
Proof.
  unfold parse_chunked. destruct (chunked_framing st) as [[[d t]|e|z| |] st1]; intro H; try discriminate.
  - destruct (dump_complaints ChunkedFraming m st1) as [[m1|e|z| |] st2] eqn:D; try discriminate.
    injection H as <- _. apply dump_appends in D; [|reflexivity]. eapply appends_trans; [exact D|]. now apply appends_refl.
  - injection H as <- _. eapply appends_trans; [apply appends_note|now apply appends_refl]. not_heading.
  - injection H as <- _. eapply appends_trans; [apply appends_note|now apply appends_refl]. not_heading.
Qed.

Lemma decode_appends E c m : appends m (decode_transfer_coding E c m).
Proof.
  unfold decode_transfer_coding. destruct (coding_is _ _).
  { eapply appends_trans; [apply appends_note|now apply appends_refl]. not_heading. }
  destruct (_ || _).
  - destruct (mbody m); [|now apply appends_refl]. destruct (if coding_is _ _ then _ else _); [now apply appends_refl|].
    eapply appends_trans; [apply appends_note|now apply appends_refl]. not_heading.
  - destruct c; [|now apply appends_refl].
    eapply appends_trans; [apply appends_note|now apply appends_refl]. not_heading.
Qed.

Lemma decodes_appends E : forall rcs m, appends m (decode_codings E rcs m).
Proof.
  induction rcs as [|c rcs IH]; intro m; [now apply appends_refl|]. cbn [decode_codings].
  destruct (body_okay _); [|now apply appends_refl]. eapply appends_trans; [apply decode_appends|apply IH].
Qed.

Lemma length_appends o m st m' st' : process_content_length o m st = (Val m', st') -> appends m m'.
Proof.
  unfold process_content_length. destruct o as [n|]; [|intro H; injection H as <- _; now apply appends_refl].
  destruct (_ <? _)%Z; [intro H; injection H as <- _; eapply appends_trans; [|apply appends_note; not_heading]; now apply appends_refl|].
  destruct (read _ _) as [[b|e|z| |] st1]; intro H; try discriminate; injection H as <- _; [now apply appends_refl|].
  eapply appends_trans; [|apply appends_note; not_heading]. now apply appends_refl.
Qed.

Lemma request_body_appends E m st m' st' : parse_request_body E m st = (Val m', st') -> appends m m'.
Proof.
  unfold parse_request_body. destruct (rev _) as [|c rcs].
  - destruct (cl_value _) as [| |n]; [intro H; injection H as <- _; now apply appends_refl|apply length_appends|].
    destruct (n =? 0); [intro H; injection H as <- _; now apply appends_refl|apply length_appends].
  - destruct (coding_is _ _); intro H.
    + bind_cases H. injection H2 as <- _. eapply appends_trans; [eapply chunked_appends; eauto|apply decodes_appends].
    + injection H as <- _. eapply appends_trans; [|apply appends_note; not_heading]. now apply appends_refl.
Qed.

Lemma response_body_appends E req status m st m' st' :
  parse_response_body E req status m st = (Val m', st') -> appends m m'.
Proof.
  unfold parse_response_body.
  destruct (status =? 101).
  { intro H. injection H as <- _. eapply appends_trans; [|apply appends_note; not_heading]. now apply appends_refl. }
  destruct (_ && _).
  { intro H. injection H as <- _. eapply appends_trans; [|apply appends_note; not_heading]. now apply appends_refl. }
  destruct (_ || _); [intro H; injection H as <- _; now apply appends_refl|].
  destruct (rev _) as [|c rcs].
  - destruct (cl_value _); [|apply length_appends|apply length_appends].
    intro H. bind_cases H. injection H2 as <- _. now apply appends_refl.
  - destruct (coding_is _ _); intro H; bind_cases H; injection H2 as <- _.
    + eapply appends_trans; [eapply chunked_appends; eauto|apply decodes_appends].
    + change (appends m (decode_codings E (c :: rcs) (set_body (Body a) m))).
      eapply appends_trans; [|apply decodes_appends]. now apply appends_refl.
Qed.

(** The notices of [m] about its heading are those of the lines of [w]. *)
Definition heading_notes (p : place) (ids : list N) (m : message) : Prop :=
  exists more, notes m = place_notes p ids ++ more /\ Forall (fun n => ~ about_heading n) more.

Lemma skipn_split (data w post : str) a :
  w <> [] -> skipn (N.to_nat a) data = w ++ post ->
  exists pre, data = pre ++ w ++ post /\ lenN pre = a.
Proof.
  intros NE H. exists (firstn (N.to_nat a) data). split.
  - rewrite <- H. symmetry. apply firstn_skipn.
  - rewrite lenN_length, firstn_length.
    assert (List.length (skipn (N.to_nat a) data) = List.length (w ++ post)) as L by now rewrite H.
    rewrite skipn_length, app_length in L. apply pos_length in NE. lia.
Qed.

Lemma line_pos l : render_line l <> [].
Proof. unfold render_line. destruct (text l), (crlf_end l); discriminate. Qed.

(** Every request and response comes from a piece of the input that starts at
    its offset.  The notices about line endings and folding in its heading
    (1224, 1016) are exactly those of the lines of that heading, and when the
    body is available, those about chunked framing are exactly those of its own
    chunk and trailer lines; other notices concern neither. *)
Theorem C24_notices_stay_with_their_message :
  forall (E : env) (inbound outbound : option str) (req : option request) (rs : list response),
    In (Exchange req rs) (yielded (parse_bytes E inbound outbound)) ->
    (forall r, req = Some r ->
       exists pre es ids w post,
         data_of inbound = pre ++ w ++ post /\ lenN pre = offset (rq_msg r) /\
         request_heading_on_wire (rq_method r) (rq_target r) (rq_version r) es ids w /\
         heading_notes RequestHeading ids (rq_msg r)) /\
    (forall r b, req = Some r -> mbody (rq_msg r) = Body b ->
       exists pre w post,
         data_of inbound = pre ++ w ++ post /\ lenN pre = offset (rq_msg r) /\
         request_on_wire E (lenN pre) r w) /\
    (forall r, In r rs ->
       exists pre es ids w post,
         data_of outbound = pre ++ w ++ post /\ lenN pre = offset (rs_msg r) /\
         response_heading_on_wire (rs_version r) (rs_status r) (rs_reason r) es ids w /\
         heading_notes ResponseHeading ids (rs_msg r)) /\
    (forall r b, In r rs -> mbody (rs_msg r) = Body b ->
       exists pre w post,
         data_of outbound = pre ++ w ++ post /\ lenN pre = offset (rs_msg r) /\
         ((exists last, response_on_wire E req (lenN pre) r w last /\ (last = true -> post = [])) \/
          switching_on_wire req (lenN pre) r w)).
Proof.
  intros E i o req rs I. pose proof (run_origin E i o) as G. fold (parse_bytes E i o) in G.
  rewrite Forall_forall in G. specialize (G _ I). cbn in G. destruct G as [G1 G2]. rewrite Forall_forall in G2.
  split; [|split; [|split]].
  - intros r ->. destruct G1 as (st' & P). set (st := stream_at (data_of i) (offset (rq_msg r))) in *.
    assert (pending st = []) as Pe by reflexivity.
    unfold parse_request in P. destruct (parse_request_heading st) as [o1 st1] eqn:H1.
    destruct o1 as [q|e|z| |]; try discriminate. bind_cases P. injection H2 as <- <-.
    destruct (request_heading_sound Pe H1) as (es & ids & w & Hw & Hm & M1).
    pose proof (mv_rest M1) as R. unfold st, stream_at in R. cbn [rest] in R.
    cbn [set_rq_msg rq_msg rq_method rq_target rq_version] in *.
    destruct (@skipn_split (data_of i) w (rest st1) (offset a)) as (pre & E1 & E2).
    { destruct Hw as (_ & _ & _ & l & ids' & w' & _ & _ & _ & -> & _). intro K. apply app_eq_nil in K. now apply (@line_pos l). }
    { exact R. }
    exists pre, es, ids, w, (rest st1). split; [assumption|]. split; [assumption|]. split; [exact Hw|].
    apply request_body_appends in H0. destruct H0 as (more & N1 & N2). rewrite Hm in N1. exists more. auto.
  - intros r b -> B. destruct G1 as (st' & P). set (st := stream_at (data_of i) (offset (rq_msg r))) in *.
    assert (pending st = []) as Pe by reflexivity.
    destruct (request_sound Pe P) as (w & W & M); [now rewrite B|].
    pose proof (mv_rest M) as R. unfold st, stream_at in R. cbn [rest] in R.
    destruct (@skipn_split (data_of i) w (rest st') (offset (rq_msg r))) as (pre & E1 & E2); [|exact R|].
    { eapply request_wire_pos; eauto. }
    exists pre, w, (rest st'). rewrite E2. auto.
  - intros r Ir. destruct (G2 r Ir) as (st' & P). set (st := stream_at (data_of o) (offset (rs_msg r))) in *.
    assert (pending st = []) as Pe by reflexivity.
    unfold response_step in P. bind_cases P. bind_cases H2. injection H3 as <- <-.
    destruct (response_heading_sound Pe H1) as (es & ids & w & Hw & Hm & M1).
    pose proof (mv_rest M1) as R. unfold st, stream_at in R. cbn [rest] in R.
    cbn [set_rs_msg rs_msg rs_version rs_status rs_reason] in *.
    destruct (@skipn_split (data_of o) w (rest st1) (offset a0)) as (pre & E1 & E2).
    { destruct Hw as (_ & d & l & ids' & w' & _ & _ & _ & _ & _ & -> & _). intro K. apply app_eq_nil in K. now apply (@line_pos l). }
    { exact R. }
    exists pre, es, ids, w, (rest st1). split; [assumption|]. split; [assumption|]. split; [exact Hw|].
    apply response_body_appends in H0. destruct H0 as (more & N1 & N2). rewrite Hm in N1. exists more. auto.
  - intros r b Ir B. destruct (G2 r Ir) as (st' & P). set (st := stream_at (data_of o) (offset (rs_msg r))) in *.
    destruct (skipn (N.to_nat (offset (rs_msg r))) (data_of o)) as [|c0 w0] eqn:Sk.
    { exfalso. unfold st, stream_at in P. rewrite Sk in P. vm_compute in P. discriminate. }
    assert (ready st (offset (rs_msg r)) (c0 :: w0)) as Rd.
    { constructor; cbn; auto. }
    destruct (one_response_sound Rd P) as [(wr & tail & last & E1 & W & L & R)|(wr & tail & st2 & E1 & W & R & _)].
    { unfold clean_response. now rewrite B. }
    + destruct (@skipn_split (data_of o) wr tail (offset (rs_msg r))) as (pre & E2 & E3).
      { eapply response_wire_pos; eauto. } { now rewrite Sk. }
      exists pre, wr, tail. rewrite E3. eauto 8.
    + destruct (@skipn_split (data_of o) wr tail (offset (rs_msg r))) as (pre & E2 & E3).
      { destruct W as (es & ids & (_ & d & l & ids' & w' & _ & _ & _ & _ & _ & -> & _) & _). intro K.
        apply app_eq_nil in K. now apply (@line_pos l). }
      { now rewrite Sk. }
      exists pre, wr, tail. rewrite E3. eauto 8.
Qed.
Print Assumptions C24_notices_stay_with_their_message.

(** Two requests, of which only the second has a bare LF. *)
Example C24_example :
  exists r1 r2,
    yielded (parse_bytes env0 (Some (crlf "GET /a HTTP/1.1" ++ crlf "" ++ crlf "GET /b HTTP/1.1" ++ [10])) None) =
      [Exchange (Some r1) []; Exchange (Some r2) []] /\
    notes (rq_msg r1) = [] /\ notes (rq_msg r2) = [mkNote 1224 (CtxPlace RequestHeading)].
Proof.
  match goal with |- exists a b, ?y = _ /\ _ => let v := eval vm_compute in y in
    match v with [Exchange (Some ?a) _; Exchange (Some ?b) _] => exists a, b end end.
  repeat split; vm_compute; reflexivity.
Qed.

(** * C25: size limits *)

(** Bodies, before any transfer coding other than chunked is removed, have at
    most 2^30 bytes, unless the end of the data delimits them. *)
Theorem C25_body_size :
  forall (E : env) (inbound outbound : option str) (req : option request) (rs : list response),
    In (Exchange req rs) (yielded (parse_bytes E inbound outbound)) ->
    (forall r b, req = Some r -> mbody (rq_msg r) = Body b ->
       exists codings payload, lenN payload <= 1073741824 /\ decodes E codings payload b /\
         (transfer_codings E (entries (rq_msg r)) [] \/
          exists c, is_chunked c /\ transfer_codings E (entries (rq_msg r)) (rev codings ++ [c]))) /\
    (forall r b, In r rs -> mbody (rs_msg r) = Body b ->
       (transfer_codings E (entries (rs_msg r)) [] /\ ~ absent "Content-Length" (entries (rs_msg r))) \/
       (exists cs c, is_chunked c /\ transfer_codings E (entries (rs_msg r)) (cs ++ [c])) ->
       exists codings payload, lenN payload <= 1073741824 /\ decodes E codings payload b).
Proof.
  intros E i o req rs I. destruct (C24_notices_stay_with_their_message I) as (_ & H1 & _ & H2). split.
  - intros r b Er B. destruct (H1 r b Er B) as (pre & w & post & _ & _ & W).
    destruct W as (es & b' & tr & ids1 & ids2 & w1 & w2 & _ & Wb & _ & Em). rewrite Em in B |- *. cbn in B |- *.
    injection B as <-. destruct Wb as [T C|n b T C L1 L2|codings c payload b tr ids w0 T C Cw D].
    + exists [], []. split; [cbn; lia|]. split; [constructor|auto].
    + exists [], b. split; [lia|]. split; [constructor|auto].
    + exists (rev codings), payload. split; [|split; [assumption|right; exists c; rewrite rev_involutive; auto]].
      destruct Cw as (cs & last & ids' & w' & _ & _ & K & _). exact K.
  - intros r b Ir B Dl. destruct (H2 r b Ir B) as (pre & w & post & _ & _ & [(last & W & _)|W]).
    2:{ destruct W as (es & ids & _ & _ & Em). rewrite Em in B. cbn in B. injection B as <-.
        exists [], []. split; [cbn; lia|constructor]. }
    destruct W as (es & b' & tr & ids1 & ids2 & w1 & w2 & _ & Wb & _ & Em). rewrite Em in B, Dl. cbn in B, Dl.
    injection B as <-.
    assert (forall cs cs', transfer_codings E es cs -> transfer_codings E es cs' -> cs = cs') as U.
    { intros cs cs' K1 K2. apply te_value_iff in K1, K2. congruence. }
    destruct Wb as [NS NB|n b NS NB T C L1 L2|codings c payload b tr ids w0 NS NB T C Cw D
                   |b NS NB T C|codings c payload b NS NB T C D].
    + exists [], []. split; [cbn; lia|constructor].
    + exists [], b. split; [lia|constructor].
    + exists (rev codings), payload. split; [|assumption].
      destruct Cw as (cs & last & ids' & w' & _ & _ & K & _). exact K.
    + exfalso. destruct Dl as [[_ K]|(cs & c & K1 & K2)]; [contradiction|].
      specialize (U _ _ T K2). destruct cs; discriminate.
    + exfalso. destruct Dl as [[K _]|(cs & c' & K1 & K2)].
      * specialize (U _ _ T K). destruct codings; discriminate.
      * specialize (U _ _ T K2). apply app_inj_tail in U. destruct U as [_ ->]. contradiction.
Qed.
Print Assumptions C25_body_size.

(** No line of a message is longer than 16 KiB: a stream in which the first
    16384 bytes have no line feed is refused. *)
Theorem C25_long_line :
  forall (E : env) (line following : str),
    lenN line = 16384 -> ~ In 10 line ->
    yielded (parse_bytes E (Some (line ++ following)) None) =
      ComplaintBox (BoxError 1006 (mkPerror 0 ExpLineLimit)) ::
      match following with [] => [] | _ => [ComplaintBox (BoxOffset 1007 16384)] end.
Proof.
  intros E line following L N.
  assert (readline (new_stream (line ++ following)) =
          (ParseErr (mkPerror 0 ExpLineLimit),
           set_sane false (after_read (new_stream (line ++ following)) 16384 following))) as R.
  { unfold readline. cbn [rest new_stream].
    destruct (take_line max_line_length (line ++ following)) as [a b] eqn:T.
    assert (a = line /\ b = following) as [-> ->].
    { apply take_line_spec in T. unfold max_line_length in T. destruct T as (E1 & L1 & T).
      assert (forall (x y a b : str), lenN a <= lenN x -> x ++ y = a ++ b -> exists z, x = a ++ z /\ b = z ++ y) as G.
      { induction x as [|c x IH]; intros y a0 b0 La Ea.
        - destruct a0; [|cbn [lenN] in La; lia]. exists []. auto.
        - destruct a0 as [|c' a0]; [exists (c :: x); auto|]. injection Ea as <- Ea. cbn [lenN] in La.
          destruct (IH y a0 b0) as (z & -> & ->); [lia|assumption|]. exists z. auto. }
      destruct (G line following a b) as (z & E2 & E3); [lia|assumption|].
      assert (~ In 10 a) as Na by (intro K; apply N; rewrite E2; apply in_or_app; auto).
      destruct T as [(x & -> & _)|(_ & T)]; [exfalso; apply Na; apply in_or_app; right; now left|].
      assert (lenN line = lenN a + lenN z) as L2 by (rewrite E2; apply lenN_app).
      assert (z = []) as ->.
      { destruct T as [T| ->]; [destruct z; [reflexivity|cbn [lenN] in L2; lia]|].
        symmetry in E3. apply app_eq_nil in E3. tauto. }
      rewrite app_nil_r in E2. subst. auto. }
    rewrite L. change (max_line_length <=? 16384) with true. cbv iota zeta. unfold raise_error.
    destruct (rev line) as [|c l] eqn:Rv; [reflexivity|].
    destruct (c =? 10) eqn:C; [|reflexivity]. exfalso. apply N. apply in_rev. rewrite Rv. left. lia. }
  unfold parse_bytes, parse_streams. cbn [option_map].
  change (loop_fuel (new_stream (line ++ following))) with (S (S (List.length (line ++ following)))).
  cbn [requests_loop]. replace (good (new_stream (line ++ following))) with true by reflexivity.
  assert (parse_request E (new_stream (line ++ following)) =
          (Val (inr (BoxError 1006 (mkPerror 0 ExpLineLimit))),
           set_sane false (after_read (new_stream (line ++ following)) 16384 following))) as P.
  { unfold parse_request, parse_request_heading. rewrite bind_tell. unfold bind at 1. now rewrite R. }
  rewrite P. cbn [good set_sane after_read sane andb]. cbn. destruct following; reflexivity.
Qed.
Print Assumptions C25_long_line.

Example C25_long_line_example : exists line, lenN line = 16384 /\ ~ In 10 line.
Proof.
  exists (repeat 97 (N.to_nat 16384)). split; [rewrite lenN_length, repeat_length; lia|].
  intro I. apply repeat_spec in I. discriminate.
Qed.

Theorem C25_heading_lines :
  forall (E : env) (inbound outbound : option str) (r : request) (rs : list response),
    In (Exchange (Some r) rs) (yielded (parse_bytes E inbound outbound)) ->
    lenN (rq_method r) + lenN (rq_target r) + lenN (rq_version r) + 3 <= 16384 /\
    (forall b e, mbody (rq_msg r) = Body b -> In e (entries (rq_msg r)) -> lenN (fst e) + 2 <= 16384).
Proof.
  intros E i o r rs I. destruct (C24_notices_stay_with_their_message I) as (H1 & H2 & _). split.
  - destruct (H1 r eq_refl) as (pre & es & ids & w & post & _ & _ & (_ & _ & _ & l & ids' & w' & T & (_ & _ & L) & _) & _).
    unfold render_line in L. rewrite T in L. unfold request_line in L.
    rewrite !lenN_app in L. cbn [lenN] in L. rewrite !lenN_app in L. cbn [lenN] in L.
    destruct (crlf_end l); cbn [eol lenN] in L; lia.
  - intros b e B Ie. destruct (H2 r b eq_refl B) as (pre & w & post & _ & _ & W).
    destruct W as (es & b' & tr & ids1 & ids2 & w1 & w2 & Hw & _ & _ & Em). rewrite Em in Ie. cbn in Ie.
    destruct Hw as (_ & _ & _ & l & ids' & w' & _ & _ & (fs & c & (F & _) & F2 & _) & _).
    clear - F F2 Ie. induction F2 as [|f e' fs es He F2 IH]; [destruct Ie|].
    inversion F as [|? ? (_ & (_ & _ & L) & _) F']; subst. destruct Ie as [<-|Ie]; [|auto].
    destruct He as [-> _]. unfold render_line, f_line in L. cbn [text crlf_end] in L.
    rewrite !lenN_app in L. cbn [lenN] in L. destruct (f_crlf f); cbn [eol lenN] in L; lia.
Qed.
Print Assumptions C25_heading_lines.

Example C25_example :
  exists r, In (Exchange (Some r) []) (yielded (parse_bytes env0 (Some two_in) None)) /\
            mbody (rq_msg r) = Body (s "abc").
Proof.
  match goal with |- exists a, In _ ?y /\ _ => let v := eval vm_compute in y in
    match v with Exchange (Some ?a) _ :: _ => exists a end end.
  split; [left; vm_compute; reflexivity|reflexivity].
Qed.

(** * C26: exceptions *)

(** A chunk size of "-2" makes [parse_streams] raise [ValueError]. *)
Theorem C26_framing_raises_refuted :
  exists (E : env) (inbound : str), how (parse_bytes E (Some inbound) None) <> Finished.
Proof. exists env0, (chunked_head ++ crlf "-2"). vm_compute. discriminate. Qed.
Print Assumptions C26_framing_raises_refuted.

(** Full statement (refuted above): no exception whatever the bytes.  Proved:
    none unless some line other than the first starts with a number below -1,
    up to its end or to a semicolon; then only [ValueError]... *)
Theorem C26_framing_raises_only :
  forall (E : env) (inbound outbound : option str),
    how (parse_bytes E inbound outbound) = Finished \/
    how (parse_bytes E inbound outbound) = Raised_ValueError /\
    exists data before size z c following,
      (inbound = Some data \/ outbound = Some data) /\
      data = before ++ [10] ++ size ++ [c] ++ following /\ In c (s ";" ++ [13; 10]) /\ ~ In 10 size /\
      literal size z /\ (z < -1)%Z.
Proof.
  intros E i o.
  assert (forall d, dashed_line (data_of d) -> exists data before size z c following, d = Some data /\
      data = before ++ [10] ++ size ++ [c] ++ following /\ In c (s ";" ++ [13; 10]) /\ ~ In 10 size /\
      literal size z /\ (z < -1)%Z) as G.
  { intros d (pre & y & E1 & size & z & c & post & -> & I & N & Li & Z). destruct d as [d|]; cbn in E1; [|destruct pre; discriminate].
    exists d, pre, size, z, c, post. split; [reflexivity|]. split; [exact E1|]. auto. }
  destruct (how (parse_bytes E i o)) eqn:Q; [now left| | |]; right;
    (assert (how (parse_bytes E i o) <> Finished) as N by (rewrite Q; discriminate);
     destruct (run_raises N) as [H D]; unfold parse_bytes in Q; rewrite Q in H; split; [exact H|];
     destruct D as [D|D]; apply G in D; destruct D as (data & before & size & z & c & fo & -> & D);
     exists data, before, size, z, c, fo; (split; [tauto|exact D])).
Qed.
Print Assumptions C26_framing_raises_only.

Lemma parse_chunk_negative c cur st tail z :
  line_ok (c_line c) -> literal (c_size c) z -> (z < -1)%Z -> cur <= 1073741824 ->
  rest st = render_line (c_line c) ++ tail -> exists st', parse_chunk cur st = (ValueErr, st').
Proof.
  intros H2 H3 Z Cu R. destruct (readline_complete H2 R) as (st1 & Q1 & Q2 & Q3). apply chunk_literal in H3.
  assert (H1 : ~ In 59 (c_size c)).
  { intro I. apply int16_chars in H3. rewrite Forall_forall in H3. destruct (H3 _ I) as [[d D]|[K|K]]; [unfold hexdigit in D; lia|cbn in K; intuition discriminate|discriminate]. }
  unfold parse_chunk. rewrite bind_tell, (bind_val _ Q1). cbv zeta. rewrite (partition_chunk H1), H3.
  assert ((z =? 0)%Z = false) as -> by lia. assert ((MAX_BODY_SIZE <? z + Z.of_N cur)%Z = false) as -> by (unfold MAX_BODY_SIZE; lia).
  unfold bind at 1, read. assert ((z <? -1)%Z = true) as -> by lia. eauto.
Qed.

Lemma chunks_loop_negative bad z cs : forall fuel acc st tail,
  Forall chunk_ok cs -> lenN acc + lenN (flat_map c_data cs) <= 1073741824 ->
  line_ok (c_line bad) -> literal (c_size bad) z -> (z < -1)%Z ->
  rest st = flat_map render_chunk cs ++ render_line (c_line bad) ++ tail ->
  (List.length (rest st) < fuel)%nat ->
  exists st', chunks_loop fuel acc st = (ValueErr, st').
Proof.
  induction cs as [|c cs IH]; intros fuel acc st tail F L H2 H3 Z R Fu;
    (destruct fuel as [|fuel]; [lia|]); cbn [chunks_loop].
  - cbn in R. cbn [flat_map] in L. destruct (@parse_chunk_negative bad (lenN acc) st tail z H2 H3 Z ltac:(change (lenN []) with 0 in L; lia) R) as (st1 & P1).
    exists st1. unfold bind. now rewrite P1.
  - inversion F as [|? ? Hc F']; subst. cbn [flat_map] in *. rewrite lenN_app in *.
    rewrite <- !app_assoc in R. assert (lenN acc + lenN (c_data c) <= 1073741824) as L' by lia.
    destruct (@parse_chunk_complete c (lenN acc) st _ Hc L' R) as (st1 & P1 & P2 & P3).
    rewrite (bind_val _ P1). apply (IH fuel (acc ++ c_data c) st1 tail); auto.
    + rewrite lenN_app. lia.
    + rewrite P3. rewrite R, app_length in Fu.
      assert (0 < List.length (render_chunk c))%nat.
      { apply pos_length. unfold render_chunk, render_line. destruct (text (c_line c)), (crlf_end (c_line c)); discriminate. }
      lia.
Qed.

(** ... and such a number as the size of a chunk in the first request does
    raise it, whatever follows. *)
Theorem C26_framing_raises_always :
  forall (E : env) (meth target version : str) (es : list entry) (ids : list N) (heading : str)
         (codings : list (option str)) (c : str) (ps : list piece) (size : str) (z : Z) (ext : option str) (crlf_ : bool)
         (following : str) (outbound : option str),
    request_heading_on_wire meth target version es ids heading ->
    transfer_codings E es (codings ++ [Some c]) -> lower c = s "chunked" ->
    Forall (fun p => spelled_ok p (lenN (p_data p)) /\ p_data p <> []) ps ->
    lenN (flat_map p_data ps) <= 1073741824 ->
    let line := mkLine (size ++ match ext with Some x => 59 :: x | None => [] end) crlf_ in
    line_ok line -> literal size z -> (z < -1)%Z ->
    how (parse_bytes E (Some (heading ++ flat_map piece_wire ps ++ render_line line ++ following)) outbound) = Raised_ValueError.
Proof.
  intros E meth target version es ids heading codings c ps size z ext b following outbound H T C F L line N2 X Z.
  set (mk := fun p => mkChunk (p_hex p ++ p_blanks p) (p_ext p) (p_crlf p) (p_data p) (p_crlf2 p)).
  assert (flat_map piece_wire ps = flat_map render_chunk (map mk ps) /\
          flat_map p_data ps = flat_map c_data (map mk ps)) as [E1 E2].
  { clear - F. induction F as [|p ps [H1 H2] F [I1 I2]]; [auto|]. cbn [map flat_map].
    destruct (spelled_chunk H1) as (_ & _ & _ & _ & K). rewrite <- K, I1, I2. auto. }
  assert (Forall chunk_ok (map mk ps)) as Fc.
  { apply Forall_map. eapply Forall_impl; [|exact F]. intros p [H1 H2].
    destruct (spelled_chunk H1) as (K1 & K2 & K3 & K4 & K5). repeat split; auto; apply K2. }
  set (bad := mkChunk size ext b [] true).
  set (data := heading ++ flat_map piece_wire ps ++ render_line line ++ following).
  destruct (@request_heading_complete meth target version es ids heading (new_stream data) _ H eq_refl eq_refl)
    as (st1 & Q1 & Q2 & Q3).
  rewrite E1 in Q3. rewrite E2 in L.
  destruct (@chunks_loop_negative bad z (map mk ps) (S (List.length (rest st1))) [] st1 following Fc L N2 X Z Q3 (Nat.lt_succ_diag_r _))
    as (st2 & K1).
  assert (P : parse_request E (new_stream data) = (ValueErr, st2)).
  { unfold parse_request. rewrite Q1. unfold parse_request_body. cbn [rq_msg entries].
    apply te_value_iff in T. rewrite T, rev_app_distr. cbn [rev app]. unfold coding_is.
    assert (ci_eqb c (s "chunked") = true) as -> by (apply ci_eqb_eq; exact C).
    unfold bind at 1 2. unfold parse_chunked, chunked_framing, parse_chunks. unfold bind at 1. now rewrite K1. }
  assert (good (new_stream data) = true) as G.
  { assert (data <> []) as N; [|destruct data; [congruence|reflexivity]].
    unfold data, line, render_line. intro K. apply app_eq_nil in K. destruct K as [_ K]. apply app_eq_nil in K. destruct K as [_ K].
    apply app_eq_nil in K. destruct K as [K _]. apply app_eq_nil in K. destruct K as [_ K]. destruct b; discriminate. }
  unfold parse_bytes, parse_streams. cbn [option_map]. unfold loop_fuel. cbn [requests_loop]. rewrite G, P. reflexivity.
Qed.
Print Assumptions C26_framing_raises_always.

Example C26_example :
  let p := mkPiece (s "0x3") [] None true (s "abc") true in
  let data := chunked_head ++ piece_wire p ++ crlf " -0x1_0 ;a" ++ s "anything" in
  how (parse_bytes env0 (Some data) (Some two_out)) = Raised_ValueError /\ how (parse_bytes env0 (Some two_in) (Some two_out)) = Finished /\
  literal (s " -0x1_0 ") (-16) /\ spelled_ok p 3 /\ line_ok (mkLine (s " -0x1_0 ;a") true).
Proof.
  cbv zeta. split; [vm_compute; reflexivity|]. split; [vm_compute; reflexivity|]. split; [apply literal_iff; vm_compute; reflexivity|].
  split; [|split; [cbn; intuition discriminate|split; [discriminate|vm_compute; discriminate]]].
  split; [apply literal_iff; vm_compute; reflexivity|split; [cbn; intuition discriminate|split; [discriminate|vm_compute; discriminate]]].
Qed.

(** * C27: folded header fields *)

(** A field written over several lines: the pieces are trimmed, and every line
    but the first starts with blanks. *)
Definition write_folded (name first : str) (more : list (str * str)) : str :=
  write_line (name ++ [58; 32] ++ first) ++ flat_map (fun p => write_line (fst p ++ snd p)) more.

Definition good_piece (p : str * str) : Prop :=
  fst p <> [] /\ Forall (fun c => is_blank c = true) (fst p) /\
  snd p <> [] /\ trimmed (snd p) /\ fits (fst p ++ snd p).

Theorem C27_folded_fields :
  forall (E : env) (meth target version : str) (before after : list entry)
         (name first : str) (more : list (str * str)) (following : str),
    let value := first ++ flat_map (fun p => 32 :: snd p) more in
    let es := before ++ [(name, value)] ++ after in
    good_heading meth target version (before ++ [(name, first)] ++ after) ->
    first <> [] -> Forall good_piece more ->
    transfer_codings E es [] -> absent "Content-Length" es ->
    exists st',
      parse_request E (new_stream
        (write_line (meth ++ [32] ++ target ++ [32] ++ version) ++ write_fields before ++
         write_folded name first more ++ write_fields after ++ write_line [] ++ following)) =
        (Val (inl (mkRequest meth target version
                     (mkMessage es [] (Body []) 0
                        (match more with [] => [] | _ => [mkNote 1016 (CtxPlace RequestHeading)] end)))), st') /\
      rest st' = following.
Proof.
  intros E meth target version before after name first more following value es
    (G1 & G2 & G3 & G4 & G5) NE F T A.
  apply Forall_app in G5. destruct G5 as [F1 G5]. apply Forall_app in G5. destruct G5 as [Fn F2].
  inversion Fn as [|? ? Gn _]; subst. clear Fn. cbn [fst snd] in *.
  set (folded := mkField name (32 :: first) true (map (fun p => mkLine (fst p ++ snd p) true) more)).
  set (fs := map simple_field before ++ [folded] ++ map simple_field after).
  set (ids := fields_notes fs ++ eol_notes true).
  assert (ids = map (fun _ => 1016) more) as Eids.
  { unfold ids, fs, fields_notes. rewrite !flat_map_app, app_nil_r.
    assert (forall l, flat_map field_notes (map simple_field l) = []) as Z.
    { induction l as [|e l IH]; [reflexivity|exact IH]. }
    rewrite !Z. cbn [app flat_map]. rewrite !app_nil_r. unfold field_notes, folded. cbn [f_conts f_line line_notes crlf_end].
    clear. cbn. induction more as [|p l IH]; [reflexivity|]. cbn. now rewrite IH. }
  assert (block_on_wire es ids (render_fields fs ++ eol true)) as B.
  { exists fs, true. split; [|split; [|auto]].
    - assert (Forall (fun f => field_ok f /\ ~ starts_blank (text (f_line f))) fs) as K.
      { unfold fs. rewrite !Forall_app. split; [|split; [constructor; [|constructor]|]];
          try (apply Forall_map; eapply Forall_impl; [|eassumption]; intros e; apply good_field_ok).
        destruct (good_field_ok Gn) as [(K1 & K2 & K3 & _) K4]. split; [|exact K4].
        split; [exact K1|]. split; [exact K2|]. split; [exact K3|].
        unfold folded. cbn [f_conts]. apply Forall_map. eapply Forall_impl; [|exact F].
        intros [b p] (P1 & P2 & P3 & P4 & P5). cbn [fst snd] in *. split; [now apply fits_line|].
        destruct b as [|c b]; [congruence|]. inversion P2; subst. exists c, (b ++ p). auto. }
      split; [eapply Forall_impl; [|exact K]; intros ? []; assumption|].
      clear - K. destruct K as [|f fs Hf K]; [constructor|]. eapply Forall_impl; [|exact K]. intros ? []; assumption.
    - unfold fs, es. apply Forall2_app; [apply (simple_fields_ok F1)|].
      apply Forall2_app; [|apply (simple_fields_ok F2)]. constructor; [|constructor].
      split; [reflexivity|]. exists (map snd more). split.
      + unfold folded. cbn [f_conts]. clear - F. induction F as [|[b p] l (P1 & P2 & P3 & P4 & P5) F IH]; constructor; auto.
        exists b. cbn [fst snd] in *. split; [reflexivity|]. split; [exact P2|apply P4].
      + unfold folded. cbn [f_raw snd]. exists [32], []. split; [|split; [repeat constructor|split; [constructor|]]].
        * cbn. rewrite app_nil_r. unfold value. do 2 f_equal. clear. induction more as [|p l IH]; [reflexivity|].
          cbn. now rewrite IH.
        * destruct Gn as (_ & _ & Tf & _). cbn [snd] in Tf. split.
          -- intros c r K. unfold value in K. destruct first as [|c' first]; [congruence|]. injection K as <- _.
             destruct Tf as [Tf _]. eapply Tf; reflexivity.
          -- unfold value. clear - Tf NE F. destruct Tf as [_ Tf].
             destruct more as [|p0 l0] using rev_ind.
             ++ cbn. rewrite app_nil_r. exact Tf.
             ++ clear IHl0. apply Forall_app in F. destruct F as [_ F]. inversion F as [|? ? (_ & _ & P3 & [_ P4] & _) _]; subst.
                intros c r K. rewrite flat_map_app in K. cbn [flat_map] in K. rewrite app_nil_r in K.
                destruct p0 as [b0 q0]. cbn [snd] in *. destruct (exists_last P3) as (y & x & ->).
                rewrite app_comm_cons, !app_assoc in K. apply app_inj_tail in K. destruct K as [_ <-]. eapply P4. reflexivity. }
  assert (request_heading_on_wire meth target version es ids
            (write_line (meth ++ [32] ++ target ++ [32] ++ version) ++ render_fields fs ++ eol true)) as Hw.
  { split; [assumption|]. split; [assumption|]. split; [assumption|].
    exists (mkLine (request_line meth target version) true), ids, (render_fields fs ++ eol true).
    split; [reflexivity|]. split; [apply fits_line; exact G4|]. split; [exact B|]. auto. }
  set (r := mkRequest meth target version (mkMessage es [] (Body []) 0
              (match more with [] => [] | _ => [mkNote 1016 (CtxPlace RequestHeading)] end))).
  assert (request_on_wire E 0 r (write_line (meth ++ [32] ++ target ++ [32] ++ version) ++ render_fields fs ++ eol true)) as W.
  { eexists es, [], [], ids, [], _, []. split; [exact Hw|]. split; [now constructor|]. split; [now rewrite app_nil_r|].
    cbn [rq_msg r]. f_equal. rewrite place_notes_nil, app_nil_r, Eids. unfold place_notes.
    destruct more as [|p l]; [reflexivity|]. cbn [map once existsb]. 
    assert (once [1016] (map (fun _ => 1016) l) = []) as ->; [|reflexivity].
    clear. induction l as [|q l IH]; [reflexivity|exact IH]. }
  assert (render_fields fs = write_fields before ++ write_folded name first more ++ write_fields after) as Ew.
  { unfold fs, render_fields. rewrite !flat_map_app.
    destruct (simple_fields_ok F1) as (_ & _ & K1 & _). destruct (simple_fields_ok F2) as (_ & _ & K2 & _).
    unfold render_fields in K1, K2. rewrite K1, K2. f_equal. f_equal. cbn [flat_map]. rewrite app_nil_r.
    unfold render_field, folded, write_folded, render_lines, render_line, write_line. cbn [f_conts f_line text crlf_end eol f_name f_raw f_crlf].
    f_equal. clear. induction more as [|p l IH]; [reflexivity|]. cbn. now rewrite IH. }
  set (data := write_line (meth ++ [32] ++ target ++ [32] ++ version) ++ write_fields before ++
         write_folded name first more ++ write_fields after ++ write_line [] ++ following).
  assert (rest (new_stream data) =
          (write_line (meth ++ [32] ++ target ++ [32] ++ version) ++ render_fields fs ++ eol true) ++ following) as R.
  { unfold data. rewrite Ew. cbn [rest new_stream]. rewrite <- !app_assoc. reflexivity. }
  destruct (@request_complete E _ _ (new_stream data) following W eq_refl R) as (st' & H1 & _ & H3). eauto.
Qed.
Print Assumptions C27_folded_fields.

Example C27_example :
  good_heading (s "GET") (s "/") (s "HTTP/1.1") ([] ++ [(s "Foo", s "a")] ++ []) /\
  Forall good_piece [(s "  ", s "b c"); ([9], s "d")] /\
  write_folded (s "Foo") (s "a") [(s "  ", s "b c"); ([9], s "d")] = crlf "Foo: a" ++ crlf "  b c" ++ [9] ++ crlf "d" /\
  s "a" ++ flat_map (fun p : str * str => 32 :: snd p) [(s "  ", s "b c"); ([9], s "d")] = s "a b c d".
Proof.
  split; [|split; [|split; reflexivity]].
  - split; [cbn; intuition discriminate|]. split; [cbn; intuition discriminate|].
    split; [exists 49, 49; split; [reflexivity|lia]|].
    split; [split; [cbn; intuition discriminate|vm_compute; discriminate]|].
    repeat (constructor; [apply good_field_by; [vm_compute; reflexivity|vm_compute; discriminate]|]). constructor.
  - assert (forall b p, b <> [] -> forallb is_blank b = true -> p <> [] -> strip p = p -> fits (b ++ p) -> good_piece (b, p)) as G.
    { intros b p K1 K2 K3 K4 K5. split; [exact K1|]. split; [apply Forall_forall; now apply forallb_forall|].
      split; [exact K3|]. split; [|exact K5]. cbn [snd]. apply stripped_strip in K4. destruct K4 as (? & ? & ? & ? & ? & K). exact K. }
    constructor; [|constructor; [|constructor]]; apply G; try discriminate; try reflexivity;
      (split; [cbn; intuition discriminate|vm_compute; discriminate]).
Qed.
