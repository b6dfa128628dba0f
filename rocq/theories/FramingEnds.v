(** How a conversation ends: protocol switches, and the one way to raise. *)
From Verif Require Import Base Stream StreamProofs Framing FramingBasics FramingRuns FramingTop
  FramingSpec FramingWire FramingMessages FramingConv FramingOrigin ChunkSizes.
From Coq Require Import ZifyBool ZifyNat ZifyN.
Unset Strict Implicit.

(** * Protocol switches *)

Definition has_switch (req : option request) (rs : list response) : Prop :=
  exists r, In r rs /\ switches req (rs_status r).

Lemma response_step_switch E req st r st' :
  response_step E req st = (Val r, st') -> switches req (rs_status r) -> sane st' = false.
Proof.
  intros H S. unfold response_step in H. bind_cases H. bind_cases H2. injection H3 as <- <-.
  cbn [set_rs_msg rs_status] in S. apply switches_iff in S. unfold parse_response_body in H0.
  destruct (rs_status a =? 101); [injection H0 as <- <-; reflexivity|].
  cbn [orb] in S. rewrite S in H0. injection H0 as <- <-. reflexivity.
Qed.

Lemma responses_switch E req : forall fuel acc st rs rb st',
  ~ has_switch req acc ->
  responses_loop fuel E req acc st = (Val (rs, rb), st') ->
  has_switch req rs ->
  sane st' = false /\ rb = None /\ exists l r, rs = l ++ [r] /\ switches req (rs_status r).
Proof.
  induction fuel as [|fuel IH]; intros acc st rs rb st' N H S; [discriminate|].
  destruct (good st) eqn:G.
  2:{ cbn [responses_loop] in H. rewrite G in H. injection H as <- <- <-. contradiction. }
  rewrite responses_step in H by assumption.
  destruct (response_step E req st) as [o1 st1] eqn:Q.
  destruct o1 as [r|e|z| |];
    try (destruct (parse_response_heading st) as [[| | | |] ?]; first [congruence|injection H as <- <- <-; contradiction]).
  destruct ((rs_status r =? 101) || (method_is "CONNECT" req && successful (rs_status r))) eqn:Sw.
  - pose proof Sw as Sw'. apply switches_iff in Sw'. pose proof (response_step_switch Q Sw') as I.
    assert (negb (informational (rs_status r)) || (rs_status r =? 101) = true) as K.
    { destruct Sw' as [->|[K _]]; [apply orb_true_r|]. unfold informational. lia. }
    rewrite K in H. injection H as <- <- <-. repeat split; eauto.
  - assert (~ has_switch req (acc ++ [r])) as N1.
    { intros (x & Ix & Sx). apply in_app_or in Ix. destruct Ix as [Ix|[<-|[]]].
      - apply N. exists x. auto.
      - apply switches_iff in Sx. congruence. }
    destruct (_ || _).
    + injection H as <- <- <-. contradiction.
    + eapply IH; eauto.
Qed.

Lemma ends_http_last req rs l r :
  rs = l ++ [r] -> switches (Some req) (rs_status r) -> ends_http req rs = true.
Proof.
  intros -> S. unfold ends_http, last_response. rewrite rev_app_distr. cbn [rev app]. now apply (@switches_iff (Some req)).
Qed.

Definition only_unread (ys : list exchange) : Prop :=
  Forall (fun x => exists a, x = ComplaintBox (BoxOffset 1007 a) \/ x = ComplaintBox (BoxOffset 1010 a)) ys.

Lemma leftover_only ys id st : (id = 1007 \/ id = 1010) -> only_unread ys -> only_unread (leftover_box id st ++ ys).
Proof.
  intros I H. unfold leftover_box. destruct (eof st); [exact H|]. constructor; [|exact H].
  destruct I as [->| ->]; eauto.
Qed.

Lemma split_cons {A} (x y : A) ys suf pre :
  x :: ys = pre ++ y :: suf ->
  (pre = [] /\ x = y /\ ys = suf) \/ (exists pre', pre = x :: pre' /\ ys = pre' ++ y :: suf).
Proof. destruct pre as [|z pre]; intro H; injection H; intros; subst; eauto. Qed.

Lemma split_app {A} (xs ys : list A) y pre suf :
  xs ++ ys = pre ++ y :: suf ->
  (exists s1, xs = pre ++ y :: s1 /\ suf = s1 ++ ys) \/
  (exists p2, pre = xs ++ p2 /\ ys = p2 ++ y :: suf).
Proof.
  revert pre; induction xs as [|x xs IH]; intros pre H; [right; exists pre; auto|].
  destruct pre as [|p pre]; injection H as -> H.
  - left. exists xs. auto.
  - destruct (IH _ H) as [(s1 & -> & ->)|(p2 & -> & ->)]; [left; exists s1|right; exists p2]; auto.
Qed.

Lemma inbound_stops E i oo ys i2 oo2 h : inbound_run E i oo ys i2 oo2 h ->
  forall pre req rs suf, ys = pre ++ Exchange req rs :: suf -> has_switch req rs ->
  suf = [] /\ h = Finished /\ exists o2, oo2 = Some o2 /\ sane o2 = false.
Proof.
  induction 1 as [i oo G|i oo e i' ys i2 oo2 h G P S R IH|i oo req i' ys i2 oo2 h G P Q R IH
                 |i os req i' rs rb os' i'' ys i2 oo2 h G P Go Q Ei R IH|i oo i' G P|i os req i' os' G P Go Q];
    intros pre rq rss suf Eq Sw.
  - destruct pre; discriminate.
  - apply split_cons in Eq. destruct Eq as [(_ & K & _)|(pre' & _ & Eq)]; [discriminate|eauto].
  - apply split_cons in Eq. destruct Eq as [(_ & K & _)|(pre' & _ & Eq)]; [|eauto].
    injection K as <- <-. destruct Sw as (r & [] & _).
  - apply split_cons in Eq. destruct Eq as [(_ & K & Eq)|(pre' & _ & Eq)].
    + injection K as <- <-. unfold parse_responses in Q.
      assert (~ has_switch (Some req) []) as N0 by (intros (r & [] & _)).
      destruct (responses_switch N0 Q Sw) as (I & -> & l & r & El & Sr).
      rewrite (ends_http_last El Sr) in Ei. subst i''.
      assert (ys = [] /\ oo2 = Some os' /\ h = Finished) as (-> & -> & ->)
        by (inversion R; subst; auto; discriminate).
      subst suf. repeat split; eauto.
    + destruct rb as [b|]; cbn [opt_box app] in Eq; [|eauto].
      apply split_cons in Eq. destruct Eq as [(_ & K & _)|(pre2 & _ & Eq)]; [discriminate|eauto].
  - destruct pre; discriminate.
  - destruct pre; discriminate.
Qed.

Lemma outbound_stops E o ys o2 h : outbound_run E o ys o2 h ->
  forall pre req rs suf, ys = pre ++ Exchange req rs :: suf -> has_switch req rs ->
  suf = [] /\ h = Finished.
Proof.
  induction 1 as [o G|o rs rb o' ys o2 h G P N R IH|o o' G P]; intros pre rq rss suf Eq Sw;
    [destruct pre; discriminate| |destruct pre; discriminate].
  assert (forall pre, opt_box rb ++ ys = pre ++ Exchange rq rss :: suf -> suf = [] /\ h = Finished) as K.
  { intros p E1. destruct rb as [b|]; cbn [opt_box app] in E1; [|eauto].
    apply split_cons in E1. destruct E1 as [(_ & K & _)|(pre2 & _ & E1)]; [discriminate|eauto]. }
  destruct (is_nil rs); cbn [app] in Eq; [eauto|].
  apply split_cons in Eq. destruct Eq as [(_ & E1 & Eq)|(pre' & _ & Eq)]; [|eauto].
  injection E1 as <- <-. unfold parse_responses in P.
  assert (~ has_switch None []) as N0 by (intros (r & [] & _)).
  destruct (responses_switch N0 P Sw) as (I & -> & l & r & El & Sr).
  assert (ys = [] /\ h = Finished) as (-> & ->).
  { inversion R; subst; auto; match goal with H : good _ = true |- _ => apply good_sane in H end; congruence. }
  subst suf. auto.
Qed.

Lemma not_leftover pre req rs suf id st more :
  leftover_box id st ++ more = pre ++ Exchange req rs :: suf ->
  exists pre', more = pre' ++ Exchange req rs :: suf.
Proof.
  unfold leftover_box. destruct (eof st); cbn [app]; [eauto|]. intro H.
  apply split_cons in H. destruct H as [(_ & K & _)|(p & _ & H)]; [discriminate|eauto].
Qed.

Theorem run_stops E di do pre req rs suf :
  yielded (parse_streams E (option_map new_stream di) (option_map new_stream do))
    = pre ++ Exchange req rs :: suf ->
  has_switch req rs -> only_unread suf.
Proof.
  pose proof (@parse_streams_run E di do) as K.
  set (r := parse_streams _ _ _) in *. clearbody r. intros Eq Sw.
  destruct K as [|di ys i2 K1|di do ys i2 o2 K1|do ys o2 K1|do ys o2 K1|di do ys i2 o1 K1 K2
                |di do ys i2 o1 ys2 o2 K1 K2 K3|di do ys i2 o1 ys2 o2 K1 K2 K3]; cbn [yielded] in Eq.
  - destruct pre; discriminate.
  - apply split_app in Eq. destruct Eq as [(s1 & E1 & ->)|(p2 & -> & E2)].
    + destruct (inbound_stops K1 E1 Sw) as (-> & _). cbn [app].
      rewrite <- (app_nil_r (leftover_box _ _)). apply leftover_only; [auto|constructor].
    + rewrite <- (app_nil_r (leftover_box _ _)) in E2. apply not_leftover in E2. destruct E2 as (p' & E2).
      destruct p'; discriminate.
  - destruct (inbound_stops K1 Eq Sw) as (-> & K & _). discriminate.
  - apply split_app in Eq. destruct Eq as [(s1 & E1 & ->)|(p2 & -> & E2)].
    + destruct (outbound_stops K1 E1 Sw) as (-> & _). cbn [app].
      rewrite <- (app_nil_r (leftover_box _ _)). apply leftover_only; [auto|constructor].
    + rewrite <- (app_nil_r (leftover_box _ _)) in E2. apply not_leftover in E2. destruct E2 as (p' & E2).
      destruct p'; discriminate.
  - destruct (outbound_stops K1 Eq Sw) as (-> & K). discriminate.
  - apply split_app in Eq. destruct Eq as [(s1 & E1 & ->)|(p2 & -> & E2)].
    + destruct (inbound_stops K1 E1 Sw) as (-> & _). cbn [app].
      apply leftover_only; [auto|]. rewrite <- (app_nil_r (leftover_box _ _)). apply leftover_only; [auto|constructor].
    + apply not_leftover in E2. destruct E2 as (p' & E2).
      rewrite <- (app_nil_r (leftover_box _ _)) in E2. apply not_leftover in E2. destruct E2 as (p3 & E2).
      destruct p3; discriminate.
  - apply split_app in Eq. destruct Eq as [(s1 & E1 & ->)|(p2 & -> & E2)].
    + destruct (inbound_stops K1 E1 Sw) as (_ & _ & o & E3 & I). injection E3 as <-.
      apply good_sane in K2. congruence.
    + apply not_leftover in E2. destruct E2 as (p' & E2). cbn [app] in E2.
      apply split_cons in E2. destruct E2 as [(_ & E2 & _)|(p3 & _ & E2)]; [discriminate|].
      apply split_app in E2. destruct E2 as [(s1 & E1 & ->)|(p4 & -> & E2)].
      * destruct (outbound_stops K3 E1 Sw) as (-> & _). cbn [app].
        rewrite <- (app_nil_r (leftover_box _ _)). apply leftover_only; [auto|constructor].
      * rewrite <- (app_nil_r (leftover_box _ _)) in E2. apply not_leftover in E2. destruct E2 as (p5 & E2).
        destruct p5; discriminate.
  - apply split_app in Eq. destruct Eq as [(s1 & E1 & ->)|(p2 & -> & E2)].
    + destruct (inbound_stops K1 E1 Sw) as (_ & _ & o & E3 & I). injection E3 as <-.
      apply good_sane in K2. congruence.
    + apply not_leftover in E2. destruct E2 as (p' & E2). cbn [app] in E2.
      apply split_cons in E2. destruct E2 as [(_ & E2 & _)|(p3 & _ & E2)]; [discriminate|].
      destruct (outbound_stops K3 E2 Sw) as (-> & K). discriminate.
Qed.

(** * Only the last response of an exchange is final *)

Definition interim (r : response) : Prop := 100 <= rs_status r <= 199 /\ rs_status r <> 101.
Definition grouped (x : exchange) : Prop :=
  match x with Exchange _ rs => Forall interim (removelast rs) | ComplaintBox _ => True end.

Lemma removelast_forall {A} (P : A -> Prop) l : Forall P l -> Forall P (removelast l).
Proof.
  induction l as [|x l IH]; intro F; [constructor|]. inversion F; subst.
  cbn. destruct l; [constructor|]. constructor; auto.
Qed.

Lemma responses_grouped E req : forall fuel acc st rs rb st',
  Forall interim acc -> responses_loop fuel E req acc st = (Val (rs, rb), st') ->
  Forall interim (removelast rs).
Proof.
  induction fuel as [|fuel IH]; intros acc st rs rb st' F H; [discriminate|].
  destruct (good st) eqn:G.
  2:{ cbn [responses_loop] in H. rewrite G in H. injection H as <- <- <-. now apply removelast_forall. }
  rewrite responses_step in H by assumption.
  destruct (response_step E req st) as [o1 st1] eqn:Q.
  destruct o1 as [r|e|z| |];
    try (destruct (parse_response_heading st) as [[| | | |] ?];
         first [congruence|injection H as <- <- <-; now apply removelast_forall]).
  destruct (_ || _) eqn:X.
  - injection H as <- <- <-. now rewrite removelast_last.
  - eapply IH; [|exact H]. apply Forall_app. split; [assumption|]. constructor; [|constructor].
    unfold interim, informational in *. lia.
Qed.

Lemma inbound_grouped E i oo ys i2 oo2 h : inbound_run E i oo ys i2 oo2 h -> Forall grouped ys.
Proof.
  induction 1 as [i oo G|i oo e i' ys i2 oo2 h G P S R IH|i oo req i' ys i2 oo2 h G P Q R IH
                 |i os req i' rs rb os' i'' ys i2 oo2 h G P Go Q Ei R IH|i oo i' G P|i os req i' os' G P Go Q];
    try constructor; cbn; auto.
  - eapply responses_grouped; [constructor|exact Q].
  - apply Forall_app. split; [|assumption]. destruct rb; repeat constructor.
Qed.

Lemma outbound_grouped E o ys o2 h : outbound_run E o ys o2 h -> Forall grouped ys.
Proof.
  induction 1 as [o G|o rs rb o' ys o2 h G P N R IH|o o' G P]; [constructor| |constructor].
  apply Forall_app. split; [|apply Forall_app; split; [destruct rb; repeat constructor|assumption]].
  destruct (is_nil rs); constructor; [|constructor]. cbn. eapply responses_grouped; [constructor|exact P].
Qed.

Theorem run_grouped E di do :
  Forall grouped (yielded (parse_streams E (option_map new_stream di) (option_map new_stream do))).
Proof.
  pose proof (@parse_streams_run E di do) as K.
  set (r := parse_streams _ _ _) in *. clearbody r.
  assert (forall id st, Forall grouped (leftover_box id st)) as L.
  { intros id st. unfold leftover_box. destruct (eof st); repeat constructor. }
  destruct K as [|di ys i2 K1|di do ys i2 o2 K1|do ys o2 K1|do ys o2 K1|di do ys i2 o1 K1 K2
                |di do ys i2 o1 ys2 o2 K1 K2 K3|di do ys i2 o1 ys2 o2 K1 K2 K3]; cbn [yielded];
    rewrite ?Forall_app; repeat split; auto; try (repeat constructor; fail);
    eauto using inbound_grouped, outbound_grouped.
Qed.

(** * Raising *)

(** A byte sequence that begins with the size of a chunk (up to the end of the
    line or a semicolon) which is a number below -1. *)
Definition dashed (x : str) : Prop :=
  exists size z c post, x = size ++ c :: post /\ In c (s ";" ++ [13; 10]) /\ ~ In 10 size /\ literal size z /\ (z < -1)%Z.

(** Some line of [x], other than the first, is like that. *)
Definition dashed_line (x : str) : Prop := exists pre y, x = pre ++ 10 :: y /\ dashed y.

Lemma parse_chunk_raises cur st st' :
  parse_chunk cur st = (ValueErr, st') -> dashed (rest st).
Proof.
  intro H. unfold parse_chunk in H. rewrite bind_tell in H. bind_cases H.
  2:{ apply MI_readline in H1. destruct H1. }
  destruct (readline_sound H1) as (b & L & M1). cbv zeta in H2.
  destruct (line_as_chunk a b) as (c & C1 & C2 & C3). rewrite C3 in H2.
  destruct (py_int16 (rstrip (c_size c))) as [size|] eqn:PI; [|discriminate].
  destruct (size =? 0)%Z eqn:Z0; [discriminate|].
  destruct (MAX_BODY_SIZE <? size + Z.of_N cur)%Z; [discriminate|].
  bind_cases H2.
  - bind_cases H3. apply MI_readlineend in H2. destruct H2.
  - assert (size < -1)%Z as Ln.
    { apply read_cases in H0. destruct H0 as [(K & _)|(r & _ & _ & _ & _ & _ & _ & _ & [(K & _)|(e & K & _)])]; [assumption|discriminate|discriminate]. }
    apply chunk_literal in PI. pose proof (mv_rest M1) as R. rewrite <- C2 in R. unfold render_line, c_line in R. cbn [text crlf_end] in R.
    assert (T : a = c_size c ++ match c_ext c with Some x => 59 :: x | None => [] end) by exact (eq_sym (f_equal text C2)).
    assert (L10 : ~ In 10 (c_size c)) by (intro I; apply (proj1 L); cbn [text]; rewrite T; apply in_or_app; now left).
    rewrite <- !app_assoc in R. destruct (c_ext c) as [x|]; cbn [app] in R.
    + exists (c_size c), size, 59. eexists. split; [exact R|]. split; [now left|]. auto.
    + destruct (c_crlf c); cbn [eol app] in R; exists (c_size c), size; eexists; eexists; (split; [exact R|]); (split; [cbn; auto|]); auto.
Qed.

Definition raises_in (st : stream) : Prop := dashed (rest st) \/ dashed_line (rest st).

Lemma eol_snoc b : exists x, eol b = x ++ [10].
Proof. destruct b; [exists [13]|exists []]; reflexivity. Qed.

Lemma raises_after st w ids st' x b : moved st w ids st' -> w = x ++ eol b -> raises_in st' -> dashed_line (rest st).
Proof.
  intros M -> H. rewrite (mv_rest M). destruct (eol_snoc b) as (e & ->). destruct H as [H|(pre & y & E & H)].
  - exists (x ++ e), (rest st'). rewrite <- !app_assoc. auto.
  - exists ((x ++ e ++ [10]) ++ pre), y. rewrite E, <- !app_assoc. auto.
Qed.

Lemma chunks_loop_raises : forall fuel acc st st',
  chunks_loop fuel acc st = (ValueErr, st') -> raises_in st.
Proof.
  induction fuel as [|fuel IH]; intros acc st st' H; [discriminate|]. cbn [chunks_loop] in H.
  bind_cases H.
  - destruct a as [d|]; [|discriminate]. apply parse_chunk_sound in H1. destruct H1 as (c & _ & _ & _ & M).
    right. eapply raises_after; [exact M| |eauto]. unfold render_chunk. rewrite app_assoc. reflexivity.
  - left. eapply parse_chunk_raises; eauto.
Qed.

Lemma chunked_raises m st st' : parse_chunked m st = (ValueErr, st') -> raises_in st.
Proof.
  unfold parse_chunked. destruct (chunked_framing st) as [[[d t]|e|z| |] st1] eqn:C; try discriminate.
  intros _. unfold chunked_framing in C. bind_cases C.
  - bind_cases H2.
    + bind_cases H3. apply MI_readlineend in H2. destruct H2.
    + apply MI_parse_header_fields in H0. destruct H0.
  - unfold parse_chunks in H1. eapply chunks_loop_raises; eauto.
Qed.

Lemma read_nat_noraise n st st' : read (Z.of_N n) st <> (ValueErr, st').
Proof.
  intro H. apply read_cases in H. destruct H as [(K & _)|(r & _ & _ & _ & _ & _ & _ & _ & [(K & _)|(e & K & _)])];
    [lia|discriminate|discriminate].
Qed.

Lemma pcl_noraise n m st st' : process_content_length n m st <> (ValueErr, st').
Proof.
  unfold process_content_length. destruct n as [n|]; [|discriminate].
  destruct (MAX_BODY_SIZE <? Z.of_N n)%Z; [discriminate|].
  destruct (read (Z.of_N n) st) as [[b|e|z| |] st1] eqn:R; try discriminate.
  now apply read_nat_noraise in R.
Qed.

Lemma request_body_raises E m st st' : parse_request_body E m st = (ValueErr, st') -> raises_in st.
Proof.
  unfold parse_request_body. destruct (rev _) as [|c rcs]; intro H.
  - exfalso. destruct (cl_value _); [discriminate| |].
    + now apply pcl_noraise in H.
    + destruct (n =? 0); [discriminate|]. now apply pcl_noraise in H.
  - destruct (coding_is _ _); [|discriminate]. bind_cases H. eapply chunked_raises; eauto.
Qed.

Lemma response_body_raises E req status m st st' :
  parse_response_body E req status m st = (ValueErr, st') -> raises_in st.
Proof.
  unfold parse_response_body. destruct (status =? 101); [discriminate|]. destruct (_ && _); [discriminate|].
  destruct (_ || _); [discriminate|]. destruct (rev _) as [|c rcs]; intro H.
  - exfalso. destruct (cl_value _).
    + bind_cases H. rewrite read_all in H1. discriminate.
    + now apply pcl_noraise in H.
    + now apply pcl_noraise in H.
  - destruct (coding_is _ _); bind_cases H; [eapply chunked_raises; eauto|].
    rewrite read_all in H1. discriminate.
Qed.

Lemma block_ends es ids w : block_on_wire es ids w -> exists x b, w = x ++ eol b.
Proof. intros (fs & b & _ & _ & -> & _). eauto. Qed.

Lemma request_raises E st st' : pending st = [] -> parse_request E st = (ValueErr, st') -> dashed_line (rest st).
Proof.
  intros P H. unfold parse_request in H.
  destruct (parse_request_heading st) as [o1 st1] eqn:H1. destruct o1 as [q|e|z| |]; try discriminate.
  - bind_cases H. destruct (request_heading_sound P H1) as (es & ids & w & Hw & Hm & M1).
    destruct Hw as (_ & _ & _ & l & i1 & w1 & _ & _ & B & -> & _). apply block_ends in B.
    destruct B as (x & b & ->). eapply raises_after; [exact M1|apply app_assoc|]. eapply request_body_raises; eauto.
  - apply MI_parse_request_heading in H1. destruct H1.
Qed.

Lemma response_step_raises E req st st' :
  pending st = [] -> response_step E req st = (ValueErr, st') -> dashed_line (rest st).
Proof.
  intros P H. unfold response_step in H. bind_cases H.
  2:{ apply MI_parse_response_heading in H1. destruct H1. }
  bind_cases H2.
  destruct (response_heading_sound P H1) as (es & ids & w & Hw & Hm & M1).
  destruct Hw as (_ & d & l & i1 & w1 & _ & _ & _ & _ & B & -> & _). apply block_ends in B.
  destruct B as (x & b & ->). eapply raises_after; [exact M1|apply app_assoc|]. eapply response_body_raises; eauto.
Qed.

Lemma dashed_suffix data pre x : data = pre ++ x -> dashed_line x -> dashed_line data.
Proof. intros -> (p & y & -> & H). exists (pre ++ p), y. rewrite <- app_assoc. auto. Qed.

Lemma responses_raises E data req : forall fuel acc st st',
  within data st -> responses_loop fuel E req acc st = (ValueErr, st') -> dashed_line data.
Proof.
  induction fuel as [|fuel IH]; intros acc st st' Wi H; [discriminate|].
  destruct (good st) eqn:G.
  2:{ cbn [responses_loop] in H. rewrite G in H. discriminate. }
  pose proof Wi as [T (pre & E1 & E2)]. specialize (T G).
  rewrite responses_step in H by assumption.
  destruct (response_step E req st) as [o1 st1] eqn:S.
  destruct o1 as [r|e|z| |];
    try (destruct (parse_response_heading st) as [[| | | |] ?]; congruence).
  - destruct (_ || _); [discriminate|]. eapply IH; [|exact H].
    eapply within_adv; [exact Wi|eapply response_step_adv; eauto|]. eapply response_step_tidy; eauto.
  - eapply dashed_suffix; [exact E1|]. eapply response_step_raises; eauto.
Qed.

Lemma inbound_raises E di do i oo ys i2 oo2 h : inbound_run E i oo ys i2 oo2 h -> h = Raised_ValueError ->
  within di i -> (forall o, oo = Some o -> within do o) -> dashed_line di \/ dashed_line do.
Proof.
  induction 1 as [i oo G|i oo e i' ys i2 oo2 h G P S R IH|i oo req i' ys i2 oo2 h G P Q R IH
                 |i os req i' rs rb os' i'' ys i2 oo2 h G P Go Q Ei R IH|i oo i' G P|i os req i' os' G P Go Q];
    intros Hh Wi Wo; try discriminate.
  - assert (within di i') as Wi'.
    { eapply within_adv; eauto; [apply parse_request_wb in P; apply P|].
      intro G'. apply good_sane in G'. congruence. }
    auto.
  - assert (within di i') as Wi'.
    { eapply within_adv; eauto; [apply parse_request_wb in P; apply P|].
      eapply request_tidy; [|eauto]. now apply Wi. }
    auto.
  - assert (within di i') as Wi'.
    { eapply within_adv; eauto; [apply parse_request_wb in P; apply P|].
      eapply request_tidy; [|eauto]. now apply Wi. }
    destruct (@responses_origin E do (Some req) _ _ _ _ _ _ (Wo os eq_refl) (Forall_nil _) Q) as [F Wo'].
    apply IH; auto.
    + subst i''; destruct (ends_http _ _); auto using within_insane.
    + intros o K. injection K as <-. assumption.
  - left. destruct Wi as [T (pre & E1 & E2)]. eapply dashed_suffix; [exact E1|].
    eapply request_raises; eauto.
  - right. eapply responses_raises; [apply Wo; reflexivity|exact Q].
Qed.

Lemma outbound_raises E do o ys o2 h : outbound_run E o ys o2 h -> h = Raised_ValueError ->
  within do o -> dashed_line do.
Proof.
  induction 1 as [o G|o rs rb o' ys o2 h G P N R IH|o o' G P]; intros Hh Wo; [discriminate| |].
  - destruct (@responses_origin E do None _ _ _ _ _ _ Wo (Forall_nil _) P) as [F Wo']. auto.
  - eapply responses_raises; eauto.
Qed.

Theorem run_raises E di do :
  how (parse_streams E (option_map new_stream di) (option_map new_stream do)) <> Finished ->
  how (parse_streams E (option_map new_stream di) (option_map new_stream do)) = Raised_ValueError /\
  (dashed_line (data_of di) \/ dashed_line (data_of do)).
Proof.
  pose proof (@parse_streams_run E di do) as K.
  set (r := parse_streams _ _ _) in *. clearbody r.
  assert (forall o, option_map new_stream do = Some o -> within (data_of do) o) as Wo.
  { destruct do; cbn; [|discriminate]. intros o H. injection H as <-. apply within_new. }
  destruct K as [|di ys i2 K1|di do ys i2 o2 K1|do ys o2 K1|do ys o2 K1|di do ys i2 o1 K1 K2
                |di do ys i2 o1 ys2 o2 K1 K2 K3|di do ys i2 o1 ys2 o2 K1 K2 K3]; cbn [how data_of] in *; intro N;
    try congruence; (split; [reflexivity|]).
  - eapply inbound_raises; [exact K1|reflexivity|apply within_new|assumption].
  - right. eapply outbound_raises; eauto using within_new.
  - right. destruct (inbound_origin K1 (within_new di) Wo) as [A B].
    eapply outbound_raises; eauto.
Qed.
