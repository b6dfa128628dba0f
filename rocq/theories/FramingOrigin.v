(** Where each yielded message comes from: it is what parsing the bytes from
    its own offset on, with nothing remembered from before, gives. *)
From Verif Require Import Base Stream StreamProofs Framing FramingBasics FramingRuns FramingTop
  FramingSpec FramingWire FramingMessages FramingConv.
From Coq Require Import ZifyBool ZifyNat ZifyN.
Unset Strict Implicit.

(** Nothing is pending on a good stream. *)
Definition tidy (st : stream) : Prop := good st = true -> pending st = [].

Lemma good_set_insane st : good (set_sane false st) = false.
Proof. reflexivity. Qed.

Lemma read_pending n st o st' : read n st = (o, st') -> pending st' = pending st.
Proof.
  intro H. apply read_cases in H.
  destruct H as [(_ & _ & ->)|(r & _ & _ & _ & H & _)]; [reflexivity|exact H].
Qed.

Lemma parse_chunked_tidy m st m' st' :
  parse_chunked m st = (Val m', st') -> tidy st'.
Proof.
  unfold parse_chunked. destruct (chunked_framing st) as [o1 st1] eqn:H1.
  pose proof H1 as W. apply WB_chunked_framing in W. destruct W as [W1 W2 W3].
  destruct o1 as [[d t]|e|z| |]; intro H; try discriminate.
  - unfold dump_complaints in H. injection H as <- <-. intros _. reflexivity.
  - injection H as <- <-. intro G. apply good_sane in G. rewrite (W2 _ eq_refl) in G. discriminate.
  - injection H as <- <-. intro G. apply good_sane in G. rewrite (W3 _ eq_refl) in G. discriminate.
Qed.

Lemma pcl_tidy n m st m' st' :
  pending st = [] -> process_content_length n m st = (Val m', st') -> tidy st'.
Proof.
  intros P H. unfold process_content_length in H. destruct n as [n|].
  - destruct (MAX_BODY_SIZE <? Z.of_N n)%Z; [injection H as <- <-; intro G; discriminate|].
    destruct (read (Z.of_N n) st) as [[b|e|z| |] st1] eqn:R; try discriminate;
      injection H as <- <-; intros _; rewrite (read_pending R); exact P.
  - injection H as <- <-. intro G. discriminate.
Qed.

Lemma request_body_tidy E m st m' st' :
  pending st = [] -> parse_request_body E m st = (Val m', st') -> tidy st'.
Proof.
  intros P H. unfold parse_request_body in H. destruct (rev _) as [|c rcs].
  - destruct (cl_value _).
    + injection H as <- <-. now intros _.
    + eapply pcl_tidy; eauto.
    + destruct (n =? 0); [injection H as <- <-; now intros _|]. eapply pcl_tidy; eauto.
  - destruct (coding_is _ _).
    + bind_cases H. injection H2 as <- <-. eapply parse_chunked_tidy; eauto.
    + injection H as <- <-. intro G. discriminate.
Qed.

Lemma response_body_tidy E req status m st m' st' :
  pending st = [] -> parse_response_body E req status m st = (Val m', st') -> tidy st'.
Proof.
  intros P H. unfold parse_response_body in H.
  destruct (status =? 101); [injection H as <- <-; intro G; discriminate|].
  destruct (_ && _); [injection H as <- <-; intro G; discriminate|].
  destruct (_ || _); [injection H as <- <-; now intros _|].
  destruct (rev _) as [|c rcs].
  - destruct (cl_value _).
    + bind_cases H. injection H2 as <- <-. intros _. now rewrite (read_pending H1).
    + eapply pcl_tidy; eauto.
    + eapply pcl_tidy; eauto.
  - destruct (coding_is _ _); bind_cases H; injection H2 as <- <-.
    + eapply parse_chunked_tidy; eauto.
    + intros _. now rewrite (read_pending H1).
Qed.

Lemma request_tidy E st x st' :
  pending st = [] -> parse_request E st = (Val x, st') -> tidy st'.
Proof.
  intros P H. unfold parse_request in H.
  destruct (parse_request_heading st) as [o1 st1] eqn:H1.
  pose proof H1 as W. apply WB_parse_request_heading in W. destruct W as [W1 W2 W3].
  destruct o1 as [q|e|z| |]; try discriminate.
  - bind_cases H. injection H2 as <- <-.
    destruct (request_heading_sound P H1) as (es & ids & w & Hw & Hm & M1).
    eapply request_body_tidy; [|exact H0]. now rewrite (mv_pending M1), P.
  - injection H as <- <-. intro G. apply good_sane in G. rewrite (W2 _ eq_refl) in G. discriminate.
Qed.

Lemma response_step_tidy E req st x st' :
  pending st = [] -> response_step E req st = (Val x, st') -> tidy st'.
Proof.
  intros P H. unfold response_step in H. bind_cases H. bind_cases H2. injection H3 as <- <-.
  destruct (response_heading_sound P H1) as (es & ids & w & Hw & Hm & M1).
  eapply response_body_tidy; [|exact H0]. now rewrite (mv_pending M1), P.
Qed.

(** * Bodies leave the offset and the header entries alone *)

Definition same_head (m m' : message) : Prop := offset m' = offset m /\ entries m' = entries m.

Lemma same_head_trans a b c : same_head a b -> same_head b c -> same_head a c.
Proof. intros [A1 A2] [B1 B2]. split; congruence. Qed.

Lemma decode_transfer_same E c m : same_head m (decode_transfer_coding E c m).
Proof.
  unfold decode_transfer_coding. destruct (coding_is _ _); [split; reflexivity|].
  destruct (_ || _).
  - destruct (mbody m); [|split; reflexivity]. destruct (if coding_is _ _ then _ else _); split; reflexivity.
  - destruct c; split; reflexivity.
Qed.

Lemma decode_codings_same E cs : forall m, same_head m (decode_codings E cs m).
Proof.
  induction cs as [|c cs IH]; intro m; cbn [decode_codings]; [split; reflexivity|].
  destruct (body_okay _); [|split; reflexivity]. eapply same_head_trans; [apply decode_transfer_same|apply IH].
Qed.

Lemma dump_same_head p m st m' st' : dump_complaints p m st = (Val m', st') -> same_head m m'.
Proof.
  unfold dump_complaints. intro H. injection H as <- <-.
  revert m; induction (pending st) as [|x l IH]; intro m; cbn; [split; reflexivity|].
  eapply same_head_trans; [|apply IH]. split; reflexivity.
Qed.

Lemma parse_chunked_same m st m' st' : parse_chunked m st = (Val m', st') -> same_head m m'.
Proof.
  unfold parse_chunked. destruct (chunked_framing st) as [[[d t]|e|z| |] st1]; intro H; try discriminate.
  - destruct (dump_complaints ChunkedFraming m st1) as [[m2|e|z| |] st2] eqn:D; try discriminate.
    apply dump_same_head in D. injection H as <- <-. destruct D. split; assumption.
  - injection H as <- <-. split; reflexivity.
  - injection H as <- <-. split; reflexivity.
Qed.

Lemma pcl_same n m st m' st' : process_content_length n m st = (Val m', st') -> same_head m m'.
Proof.
  unfold process_content_length. destruct n as [n|].
  - destruct (MAX_BODY_SIZE <? Z.of_N n)%Z; [intro H; injection H as <- <-; split; reflexivity|].
    destruct (read (Z.of_N n) st) as [[b|e|z| |] st1]; intro H; try discriminate;
      injection H as <- <-; split; reflexivity.
  - intro H; injection H as <- <-; split; reflexivity.
Qed.

Lemma request_body_same E m st m' st' : parse_request_body E m st = (Val m', st') -> same_head m m'.
Proof.
  unfold parse_request_body. destruct (rev _) as [|c rcs]; intro H.
  - destruct (cl_value _).
    + injection H as <- <-. split; reflexivity.
    + eapply pcl_same; eauto.
    + destruct (n =? 0); [injection H as <- <-; split; reflexivity|]. eapply pcl_same; eauto.
  - destruct (coding_is _ _).
    + bind_cases H. injection H2 as <- <-. eapply same_head_trans; [eapply parse_chunked_same; eauto|].
      apply decode_codings_same.
    + injection H as <- <-. split; reflexivity.
Qed.

Lemma response_body_same E req status m st m' st' :
  parse_response_body E req status m st = (Val m', st') -> same_head m m'.
Proof.
  intro H. unfold parse_response_body in H.
  destruct (status =? 101); [injection H as <- <-; split; reflexivity|].
  destruct (_ && _); [injection H as <- <-; split; reflexivity|].
  destruct (_ || _); [injection H as <- <-; split; reflexivity|].
  destruct (rev _) as [|c rcs].
  - destruct (cl_value _).
    + bind_cases H. injection H2 as <- <-. split; reflexivity.
    + eapply pcl_same; eauto.
    + eapply pcl_same; eauto.
  - destruct (coding_is _ _); bind_cases H; injection H2 as <- <-.
    + eapply same_head_trans; [eapply parse_chunked_same; eauto|]. apply decode_codings_same.
    + eapply same_head_trans; [|apply decode_codings_same]. eapply same_head_trans; [|apply decode_transfer_same]. split; reflexivity.
Qed.

Lemma request_offset E st r st' :
  pending st = [] -> parse_request E st = (Val (inl r), st') -> offset (rq_msg r) = pos st.
Proof.
  intros P H. unfold parse_request in H.
  destruct (parse_request_heading st) as [o1 st1] eqn:H1. destruct o1 as [q|e|z| |]; try discriminate.
  bind_cases H. injection H2 as <- <-. cbn [set_rq_msg rq_msg].
  destruct (request_heading_sound P H1) as (es & ids & w & Hw & Hm & M1).
  apply request_body_same in H0. destruct H0 as [-> _]. now rewrite Hm.
Qed.

Lemma response_offset E req st r st' :
  pending st = [] -> response_step E req st = (Val r, st') -> offset (rs_msg r) = pos st.
Proof.
  intros P H. unfold response_step in H. bind_cases H. bind_cases H2. injection H3 as <- <-.
  destruct (response_heading_sound P H1) as (es & ids & w & Hw & Hm & M1). cbn [set_rs_msg rs_msg].
  apply response_body_same in H0. destruct H0 as [-> _]. now rewrite Hm.
Qed.

(** * Every message of a run *)

(** A stream positioned at byte [a] of [data], as if nothing had been read. *)
Definition stream_at (data : str) (a : N) : stream :=
  mkStream (skipn (N.to_nat a) data) a false true [].

Definition within (data : str) (st : stream) : Prop :=
  tidy st /\ exists pre, data = pre ++ rest st /\ pos st = lenN pre.

Lemma within_at data st : within data st -> good st = true -> st = stream_at data (pos st).
Proof.
  intros [T (pre & E1 & E2)] G. pose proof (T G) as P. unfold good in G.
  apply andb_true_iff in G. destruct G as [G1 G2]. unfold stream_at.
  assert (skipn (N.to_nat (pos st)) data = rest st) as ->.
  { rewrite E1, E2, lenN_length, Nat2N.id, skipn_app, skipn_all, Nat.sub_diag. reflexivity. }
  destruct st; cbn in *. subst. destruct eof; [discriminate|reflexivity].
Qed.

Lemma within_new data : within data (new_stream data).
Proof. split; [intros _; reflexivity|]. exists []. auto. Qed.

Lemma within_adv data st st' : within data st -> adv st st' -> tidy st' -> within data st'.
Proof.
  intros [_ (pre & E1 & E2)] A T. split; [assumption|].
  destruct A as [(c & C1 & C2) _ _]. exists (pre ++ c). rewrite <- app_assoc, <- C1. split; [assumption|].
  now rewrite C2, E2, lenN_app.
Qed.

Lemma within_insane data st : within data st -> within data (set_sane false st).
Proof. intros [T H]. split; [intro G; discriminate|exact H]. Qed.

Definition request_from (E : env) (data : str) (r : request) : Prop :=
  exists st', parse_request E (stream_at data (offset (rq_msg r))) = (Val (inl r), st').
Definition response_from (E : env) (data : str) (req : option request) (r : response) : Prop :=
  exists st', response_step E req (stream_at data (offset (rs_msg r))) = (Val r, st').

Lemma response_step_adv E req st r st' : response_step E req st = (Val r, st') -> adv st st'.
Proof.
  intro H. unfold response_step in H. bind_cases H. bind_cases H2. injection H3 as <- <-.
  apply WB_parse_response_heading in H1. destruct H1 as [A1 _ _].
  apply parse_response_body_wb in H0. destruct H0 as [A2 _]. eapply adv_trans; eauto.
Qed.

Lemma responses_origin E data req : forall fuel acc st rs rb st',
  within data st -> Forall (response_from E data req) acc ->
  responses_loop fuel E req acc st = (Val (rs, rb), st') ->
  Forall (response_from E data req) rs /\ within data st'.
Proof.
  induction fuel as [|fuel IH]; intros acc st rs rb st' Wi F H; [discriminate|].
  destruct (good st) eqn:G.
  2:{ cbn [responses_loop] in H. rewrite G in H. injection H as <- <- <-. auto. }
  pose proof (within_at Wi G) as Eq. destruct Wi as [T Wi].
  rewrite responses_step in H by assumption.
  destruct (response_step E req st) as [o1 st1] eqn:S.
  assert (forall e, parse_response_heading st = (ParseErr e, st') -> within data st') as WH.
  { intros e K. apply WB_parse_response_heading in K. destruct K as [K1 K2 _].
    eapply within_adv; [split; eassumption|exact K1|].
    intro G'. apply good_sane in G'. rewrite (K2 _ eq_refl) in G'. discriminate. }
  destruct o1 as [r|e|z| |];
    try (destruct (parse_response_heading st) as [[| | | |] ?] eqn:Hd;
         first [congruence|injection H as <- <- <-; eauto]).
  assert (within data st1) as W1.
  { eapply within_adv; [split; eassumption| |]; [eapply response_step_adv; eauto|].
    eapply response_step_tidy; eauto. }
  assert (Forall (response_from E data req) (acc ++ [r])) as F1.
  { apply Forall_app. split; [assumption|]. constructor; [|constructor].
    unfold response_from. rewrite (response_offset (T G) S), <- Eq. eauto. }
  destruct (_ || _).
  - injection H as <- <- <-. auto.
  - eapply IH; eauto.
Qed.

Definition exchange_from (E : env) (di do : str) (x : exchange) : Prop :=
  match x with
  | Exchange req rs =>
      match req with Some r => request_from E di r | None => True end /\
      Forall (response_from E do req) rs
  | ComplaintBox _ => True
  end.

Lemma opt_box_from E di do rb : Forall (exchange_from E di do) (opt_box rb).
Proof. destruct rb; cbn; constructor; cbn; auto. Qed.

Lemma inbound_origin E di do i oo ys i2 oo2 h : inbound_run E i oo ys i2 oo2 h ->
  within di i -> (forall o, oo = Some o -> within do o) ->
  Forall (exchange_from E di do) ys /\ (h = Finished -> forall o, oo2 = Some o -> within do o).
Proof.
  induction 1 as [i oo G|i oo e i' ys i2 oo2 h G P S R IH|i oo req i' ys i2 oo2 h G P Q R IH
                 |i os req i' rs rb os' i'' ys i2 oo2 h G P Go Q Ei R IH|i oo i' G P|i os req i' os' G P Go Q];
    intros Wi Wo.
  - auto.
  - assert (within di i') as Wi'.
    { eapply within_adv; eauto; [apply parse_request_wb in P; apply P|].
      intro G'. apply good_sane in G'. congruence. }
    destruct (IH Wi' Wo) as [A B]. split; [|assumption]. constructor; cbn; auto.
  - pose proof (within_at Wi G) as Eq. pose proof (proj1 Wi G) as T.
    assert (within di i') as Wi'.
    { eapply within_adv; eauto; [apply parse_request_wb in P; apply P|]. eapply request_tidy; eauto. }
    destruct (IH Wi' Wo) as [A B]. split; [|assumption]. constructor; [|assumption]. cbn.
    split; [|constructor]. unfold request_from. rewrite (request_offset T P), <- Eq. eauto.
  - pose proof (within_at Wi G) as Eq. pose proof (proj1 Wi G) as T.
    assert (within di i') as Wi'.
    { eapply within_adv; eauto; [apply parse_request_wb in P; apply P|]. eapply request_tidy; eauto. }
    destruct (@responses_origin E do (Some req) _ _ _ _ _ _ (Wo os eq_refl) (Forall_nil _) Q) as [F Wo'].
    assert (within di i'') as Wi'' by (subst i''; destruct (ends_http _ _); auto using within_insane).
    destruct IH as [A B]; auto. { intros o K. injection K as <-. assumption. }
    split; [|assumption]. constructor.
    + cbn. split; [|assumption]. unfold request_from. rewrite (request_offset T P), <- Eq. eauto.
    + apply Forall_app. split; [apply opt_box_from|assumption].
  - split; [constructor|discriminate].
  - split; [constructor|discriminate].
Qed.

Lemma outbound_origin E di do o ys o2 h : outbound_run E o ys o2 h ->
  within do o -> Forall (exchange_from E di do) ys.
Proof.
  induction 1 as [o G|o rs rb o' ys o2 h G P N R IH|o o' G P]; intro Wo; [constructor| |constructor].
  destruct (@responses_origin E do None _ _ _ _ _ _ Wo (Forall_nil _) P) as [F Wo'].
  apply Forall_app. split; [|apply Forall_app; split; [apply opt_box_from|auto]].
  destruct (is_nil rs); constructor; cbn; auto.
Qed.

Lemma leftover_from E di do id st : Forall (exchange_from E di do) (leftover_box id st).
Proof. unfold leftover_box. destruct (eof st); repeat constructor. Qed.

Definition data_of (d : option str) : str := match d with Some x => x | None => [] end.

Theorem run_origin E di do :
  Forall (exchange_from E (data_of di) (data_of do))
    (yielded (parse_streams E (option_map new_stream di) (option_map new_stream do))).
Proof.
  pose proof (@parse_streams_run E di do) as K.
  set (r := parse_streams _ _ _) in *. clearbody r.
  assert (forall o, option_map new_stream do = Some o -> within (data_of do) o) as Wo.
  { destruct do; cbn; [|discriminate]. intros o H. injection H as <-. apply within_new. }
  destruct K as [|di ys i2 K1|di do ys i2 o2 K1|do ys o2 K1|do ys o2 K1|di do ys i2 o1 K1 K2
                |di do ys i2 o1 ys2 o2 K1 K2 K3|di do ys i2 o1 ys2 o2 K1 K2 K3]; cbn [yielded data_of] in *.
  - constructor.
  - apply Forall_app. split; [|apply leftover_from].
    eapply inbound_origin; [exact K1|apply within_new|discriminate].
  - eapply inbound_origin; [exact K1|apply within_new|assumption].
  - apply Forall_app. split; [|apply leftover_from]. eapply outbound_origin; eauto using within_new.
  - eapply outbound_origin; eauto using within_new.
  - rewrite !Forall_app. repeat split; auto using leftover_from.
    eapply inbound_origin; [exact K1|apply within_new|assumption].
  - destruct (inbound_origin K1 (within_new di) Wo) as [A B].
    rewrite !Forall_app. repeat split; auto using leftover_from; try (repeat constructor; fail).
    eapply outbound_origin; eauto.
  - destruct (inbound_origin K1 (within_new di) Wo) as [A B].
    rewrite !Forall_app. repeat split; auto using leftover_from; try (repeat constructor; fail).
    eapply outbound_origin; eauto.
Qed.
