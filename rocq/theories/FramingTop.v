(** Facts about whole runs of [parse_streams]: termination, progress, and
    accounting for every byte. *)
From Verif Require Import Base Stream StreamProofs Framing FramingBasics FramingRuns.
From Coq Require Import ZifyBool ZifyNat ZifyN.
Unset Strict Implicit.

Definition b2n (b : bool) : nat := if b then 1%nat else 0%nat.
Definition og (o : option stream) : nat := match o with Some x => b2n (good x) | None => 0%nat end.

Lemma responses_box_insane fuel E req acc st resps rb st' :
  responses_loop fuel E req acc st = (Val (resps, Some rb), st') -> sane st' = false.
Proof.
  revert acc st; induction fuel as [|fuel IH]; intros acc st; cbn [responses_loop]; [discriminate|].
  destruct (good st); [|discriminate].
  destruct (parse_response_heading st) as [o1 st1] eqn:H1.
  pose proof H1 as W; apply WB_parse_response_heading in W. destruct W as [W1 W2 W3].
  destruct o1 as [r|e|z| |]; intro H; try discriminate.
  - apply bind_inv in H.
    destruct H as [(m & st2 & K1 & K2)|[(e & K1 & K2)|[(z & K1 & K2)|[(K1 & K2)|(K1 & K2)]]]];
      try discriminate.
    cbv zeta in K2. destruct (_ || _); [discriminate|]. eapply IH; eauto.
  - injection H as <- <- <-. eapply W2; reflexivity.
Qed.

Lemma parse_responses_count E req st resps rb st' :
  good st = true -> parse_responses E req st = (Val (resps, rb), st') ->
  (List.length (opt_box rb) + b2n (good st') <= 1)%nat.
Proof.
  intros G H. destruct rb as [b|]; simpl; [|destruct (good st'); simpl; lia].
  apply responses_box_insane in H. rewrite (insane_not_good H). simpl. lia.
Qed.

Lemma inbound_count E i o ys i2 o2 h :
  inbound_run E i o ys i2 o2 h ->
  (List.length ys + og o2 <= List.length (rest i) + b2n (good i) + og o)%nat.
Proof.
  induction 1 as [i o G|i o e i' ys i2 o2 h G P S R IH|i o req i' ys i2 o2 h G P Q R IH
                 |i os req i' resps rb os' i'' ys i2 o2 h G P Go Q Ei R IH|i o i' G P|i os req i' os' G P Go Q].
  - simpl. lia.
  - rewrite G. rewrite (insane_not_good S) in IH. apply parse_request_wb in P. destruct P as [P _].
    apply adv_len in P. simpl in *. lia.
  - destruct (parse_request_val P) as [K|[(e & K & _)|(r & K & L)]]; try discriminate.
    rewrite G. simpl in *. destruct (good i'); simpl in *; lia.
  - destruct (parse_request_val P) as [K|[(e & K & _)|(r & K & L)]]; try discriminate.
    pose proof (parse_responses_count Go Q) as C.
    assert (rest i'' = rest i') as Er by (subst i''; destruct (ends_http _ _); reflexivity).
    rewrite Er in IH. rewrite G. cbn [List.length og]. rewrite app_length, Go.
    cbn [og] in *. destruct (good i''), (good os'); simpl in *; lia.
  - simpl. lia.
  - simpl. rewrite Go. destruct (good os'); simpl; lia.
Qed.

Lemma outbound_count E o ys o2 h :
  outbound_run E o ys o2 h -> (List.length ys <= List.length (rest o) + b2n (good o))%nat.
Proof.
  induction 1 as [o G|o resps rb o' ys o2 h G P N R IH|o o' G P].
  - simpl. lia.
  - destruct (parse_responses_progress G P) as [K|(rs & b & K & L)]; [discriminate|].
    injection K as <- <-. pose proof (parse_responses_count G P) as C.
    pose proof P as A. apply parse_responses_wb in A. destruct A as [A _]. apply adv_len in A.
    rewrite !app_length, G.
    destruct L as [L|L].
    + rewrite (insane_not_good L) in *.
      assert (resps = [] \/ (List.length (rest o') < List.length (rest o))%nat) as D.
      { clear - G P. unfold parse_responses in P. cbn [responses_loop] in P. rewrite G in P.
        destruct (parse_response_heading o) as [o1 st1] eqn:H1.
        destruct o1 as [r|e|z| |]; try discriminate.
        - right. apply shrinks_parse_response_heading in H1. apply bind_inv in P.
          destruct P as [(m & st2 & K1 & K2)|[(e & K1 & K2)|[(z & K1 & K2)|[(K1 & K2)|(K1 & K2)]]]];
            try discriminate.
          apply parse_response_body_wb in K1. destruct K1 as [K1 _]. apply adv_len in K1.
          cbv zeta in K2. destruct (_ || _).
          + injection K2 as <- <- <-. lia.
          + apply responses_loop_wb in K2. destruct K2 as [K2 _]. apply adv_len in K2. lia.
        - injection P as <- <- <-. now left. }
      destruct D as [->|D]; simpl in *; [lia|]. destruct (is_nil resps); simpl; lia.
    + destruct (is_nil resps), (good o'); simpl in *; lia.
  - simpl. lia.
Qed.

Definition olen (d : option str) : nat := match d with Some x => List.length x | None => 0%nat end.

Lemma run_count E di do :
  (List.length (yielded (parse_streams E (option_map new_stream di) (option_map new_stream do)))
   <= olen di + olen do + 5)%nat.
Proof.
  pose proof (parse_streams_run E di do) as R.
  revert R. generalize (parse_streams E (option_map new_stream di) (option_map new_stream do)).
  intros res R.
  assert (forall id st, (List.length (leftover_box id st) <= 1)%nat) as LB.
  { intros id st. unfold leftover_box. destruct (eof st); simpl; lia. }
  assert (forall E o1 ys o2 h, outbound_run E o1 ys o2 h ->
            (List.length (rest o2) <= List.length (rest o1))%nat) as OL.
  { clear. induction 1 as [o G|o resps rb o' ys o2 h G P N R IH|o o' G P]; [lia| |];
      apply parse_responses_wb in P; destruct P as [P _]; apply adv_len in P; lia. }
  assert (forall i o ys i2 o2 h, inbound_run E i o ys i2 o2 h ->
            forall a b, o = Some a -> o2 = Some b -> (List.length (rest b) <= List.length (rest a))%nat) as IL.
  { clear. induction 1 as [i o G|i o e i' ys i2 o2 h G P S R IH|i o req i' ys i2 o2 h G P Q R IH
                 |i os req i' resps rb os' i'' ys i2 o2 h G P Go Q Ei R IH|i o i' G P|i os req i' os' G P Go Q];
      intros a b Ea Eb; subst; eauto.
    - injection Eb as <-. lia.
    - injection Ea as <-. specialize (IH _ _ eq_refl eq_refl).
      apply parse_responses_wb in Q; destruct Q as [Q _]; apply adv_len in Q; lia.
    - injection Eb as <-. lia.
    - injection Ea as <-. injection Eb as <-.
      apply parse_responses_wb in Q; destruct Q as [Q _]; apply adv_len in Q; lia. }
  inversion R as [|di' ys i2 H Hdi|di' do' ys i2 o2 H Hdi|do' ys o2 H Hdi|do' ys o2 H Hdi
                 |di' do' ys i2 o1 H G Hdi|di' do' ys i2 o1 ys2 o2 H G H2 Hdi
                 |di' do' ys i2 o1 ys2 o2 H G H2 Hdi]; subst; cbn [yielded olen];
    rewrite ?app_length.
  - simpl. lia.
  - apply inbound_count in H. simpl in H. specialize (LB 1007 i2). lia.
  - apply inbound_count in H. destruct do; simpl in *; lia.
  - apply outbound_count in H. simpl in H. specialize (LB 1010 o2). lia.
  - apply outbound_count in H. simpl in H. lia.
  - apply inbound_count in H. simpl in H. pose proof (LB 1007 i2). pose proof (LB 1010 o1). lia.
  - pose proof (IL _ _ _ _ _ _ H _ _ eq_refl eq_refl) as L.
    apply inbound_count in H. apply outbound_count in H2. simpl in *.
    pose proof (LB 1007 i2). pose proof (LB 1010 o2). rewrite G in *. simpl in *. lia.
  - pose proof (IL _ _ _ _ _ _ H _ _ eq_refl eq_refl) as L.
    apply inbound_count in H. apply outbound_count in H2. simpl in *.
    pose proof (LB 1007 i2). rewrite G in *. simpl in *. lia.
Qed.

Lemma run_terminates E di do :
  how (parse_streams E (option_map new_stream di) (option_map new_stream do)) <> OutOfFuel.
Proof. destruct (parse_streams_run E di do); discriminate. Qed.

Lemma run_how E di do :
  let h := how (parse_streams E (option_map new_stream di) (option_map new_stream do)) in
  h = Finished \/ h = Raised_ValueError.
Proof. cbv zeta. destruct (parse_streams_run E di do); auto. Qed.

(** * At least one exchange *)

Lemma inbound_nonempty E i o ys i2 o2 h :
  inbound_run E i o ys i2 o2 h -> good i = true -> h = Finished -> ys <> [].
Proof. destruct 1; congruence || (intros; discriminate). Qed.

Lemma outbound_nonempty E o ys o2 h :
  outbound_run E o ys o2 h -> good o = true -> h = Finished -> ys <> [].
Proof.
  destruct 1 as [o G|o resps rb o' ys o2 h G P N R|o o' G P]; try congruence; intros _ _ K.
  destruct N as [N|N].
  - destruct resps; [congruence|discriminate].
  - destruct rb; [|congruence]. destruct (is_nil resps); discriminate.
Qed.

Lemma run_nonempty E di do :
  (di <> None \/ do <> None) ->
  let r := parse_streams E (option_map new_stream di) (option_map new_stream do) in
  how r = Finished -> yielded r <> [].
Proof.
  intros D r F. pose proof (parse_streams_run E di do) as R. fold r in R.
  destruct r as [ys0 i0 o0 h0]. cbn in *. subst h0.
  inversion R as [|di' ys i2 H Hdi|di' do' ys i2 o2 H Hdi|do' ys o2 H Hdi|do' ys o2 H Hdi
                 |di' do' ys i2 o1 H G Hdi|di' do' ys i2 o1 ys2 o2 H G H2 Hdi
                 |di' do' ys i2 o1 ys2 o2 H G H2 Hdi]; subst.
  - destruct D; congruence.
  - intro A. apply app_eq_nil in A. destruct A as [A _]. revert A. eapply inbound_nonempty; eauto.
  - intro A. apply app_eq_nil in A. destruct A as [A _]. revert A. eapply outbound_nonempty; eauto.
  - intro A. apply app_eq_nil in A. destruct A as [A _]. revert A. eapply inbound_nonempty; eauto.
  - intro A. apply app_eq_nil in A. destruct A as [A _]. revert A. eapply inbound_nonempty; eauto.
Qed.

(** * Byte accounting *)

(** Invariant of a stream that came from [new_stream data]. *)
Definition inv (data : str) (st : stream) : Prop :=
  (exists c, data = c ++ rest st /\ pos st = lenN c) /\ okst st /\
  (good st = true \/ exact st).

Lemma inv_new data : inv data (new_stream data).
Proof.
  split; [exists []; split; reflexivity|]. split; [discriminate|]. left. reflexivity.
Qed.

Lemma inv_adv data st st' : inv data st -> adv st st' -> exact st' -> inv data st'.
Proof.
  intros [(c & H1 & H2) [H3 H4]] [[d [D1 D2]] A2 A3 A4 A5] X. split; [|split].
  - exists (c ++ d). rewrite H1, D1, D2, H2, lenN_app. split; [apply app_assoc|reflexivity].
  - auto.
  - now right.
Qed.

Lemma inv_end data st : inv data st -> good st = false -> exact st.
Proof. intros [_ [_ [H|H]]] G; [congruence|assumption]. Qed.

Lemma inbound_inv E i o ys i2 o2 h :
  inbound_run E i o ys i2 o2 h ->
  (forall d, inv d i -> inv d i2) /\
  (forall d a, o = Some a -> inv d a -> exists b, o2 = Some b /\ inv d b) /\
  (h = Finished -> good i2 = false).
Proof.
  induction 1 as [i o G|i o e i' ys i2 o2 h G P S R IH|i o req i' ys i2 o2 h G P Q R IH
                 |i os req i' resps rb os' i'' ys i2 o2 h G P Go Q Ei R IH|i o i' G P|i os req i' os' G P Go Q].
  - split; [auto|split; [eauto|auto]].
  - destruct IH as (IH1 & IH2 & IH3). split; [|auto].
    intros d D. apply IH1. pose proof P as A. apply parse_request_wb in A.
    eapply inv_adv; [exact D|apply A|]. eapply mkx_parse_request; [apply D|exact P].
  - destruct IH as (IH1 & IH2 & IH3). split; [|auto].
    intros d D. apply IH1. pose proof P as A. apply parse_request_wb in A.
    eapply inv_adv; [exact D|apply A|]. eapply mkx_parse_request; [apply D|exact P].
  - destruct IH as (IH1 & IH2 & IH3). split; [|split; [|auto]].
    + intros d D. apply IH1. pose proof P as A. apply parse_request_wb in A.
      assert (exact i') as X by (eapply mkx_parse_request; [apply D|exact P]).
      assert (inv d i') as D' by (eapply inv_adv; [exact D|apply A|exact X]).
      subst i''. destruct (ends_http _ _); [|assumption].
      destruct D' as (K1 & K2 & K3). split; [exact K1|]. split; [exact K2|]. right. exact X.
    + intros d a Ea D. injection Ea as <-. eapply IH2; [reflexivity|].
      pose proof Q as A. apply parse_responses_wb in A.
      eapply inv_adv; [exact D|apply A|]. eapply parse_responses_exact; eauto. apply D.
  - split; [|split; [eauto|discriminate]].
    intros d D. pose proof P as A. apply parse_request_wb in A.
    eapply inv_adv; [exact D|apply A|]. eapply mkx_parse_request; [apply D|exact P].
  - split; [|split; [|discriminate]].
    + intros d D. pose proof P as A. apply parse_request_wb in A.
      eapply inv_adv; [exact D|apply A|]. eapply mkx_parse_request; [apply D|exact P].
    + intros d a Ea D. injection Ea as <-. eexists. split; [reflexivity|].
      pose proof Q as A. apply parse_responses_wb in A.
      eapply inv_adv; [exact D|apply A|]. eapply parse_responses_exact; eauto. apply D.
Qed.

Lemma outbound_inv E o ys o2 h :
  outbound_run E o ys o2 h ->
  (forall d, inv d o -> inv d o2) /\ (h = Finished -> good o2 = false).
Proof.
  induction 1 as [o G|o resps rb o' ys o2 h G P N R IH|o o' G P].
  - auto.
  - destruct IH as (IH1 & IH3). split; [|auto]. intros d D. apply IH1.
    pose proof P as A. apply parse_responses_wb in A.
    eapply inv_adv; [exact D|apply A|]. eapply parse_responses_exact; eauto. apply D.
  - split; [|discriminate]. intros d D.
    pose proof P as A. apply parse_responses_wb in A.
    eapply inv_adv; [exact D|apply A|]. eapply parse_responses_exact; eauto. apply D.
Qed.

(** No box other than the final ones carries an offset. *)
Definition offset_box (id : N) (x : exchange) : bool :=
  match x with ComplaintBox (BoxOffset j _) => id =? j | _ => false end.

Lemma responses_box_kind fuel E req acc st resps rb st' :
  responses_loop fuel E req acc st = (Val (resps, Some rb), st') -> exists e, rb = BoxError 1009 e.
Proof.
  revert acc st; induction fuel as [|fuel IH]; intros acc st; cbn [responses_loop]; [discriminate|].
  destruct (good st); [|discriminate].
  destruct (parse_response_heading st) as [o1 st1] eqn:H1.
  destruct o1 as [r|e|z| |]; intro H; try discriminate.
  - apply bind_inv in H.
    destruct H as [(m & st2 & K1 & K2)|[(e & K1 & K2)|[(z & K1 & K2)|[(K1 & K2)|(K1 & K2)]]]];
      try discriminate.
    cbv zeta in K2. destruct (_ || _); [discriminate|]. eapply IH; eauto.
  - injection H as <- <- <-. eauto.
Qed.

Lemma opt_box_plain id E req st resps rb st' :
  parse_responses E req st = (Val (resps, rb), st') -> filter (offset_box id) (opt_box rb) = [].
Proof.
  destruct rb as [b|]; [|reflexivity]. intro H. apply responses_box_kind in H.
  destruct H as [e ->]. reflexivity.
Qed.

Lemma inbound_plain id E i o ys i2 o2 h :
  inbound_run E i o ys i2 o2 h -> filter (offset_box id) ys = [].
Proof.
  induction 1 as [i o G|i o e i' ys i2 o2 h G P S R IH|i o req i' ys i2 o2 h G P Q R IH
                 |i os req i' resps rb os' i'' ys i2 o2 h G P Go Q Ei R IH|i o i' G P|i os req i' os' G P Go Q];
    simpl; auto.
  rewrite filter_app, IH. erewrite opt_box_plain by exact Q. reflexivity.
Qed.

Lemma outbound_plain id E o ys o2 h :
  outbound_run E o ys o2 h -> filter (offset_box id) ys = [].
Proof.
  induction 1 as [o G|o resps rb o' ys o2 h G P N R IH|o o' G P]; auto.
  rewrite !filter_app, IH. erewrite opt_box_plain by exact P. destruct (is_nil resps); reflexivity.
Qed.

(** The unread part of [data] is reported by one box with its offset, and
    nothing is reported if everything was read. *)
Definition accounted (id : N) (data : str) (ys : list exchange) : Prop :=
  exists consumed left,
    data = consumed ++ left /\
    filter (offset_box id) ys =
      match left with
      | [] => []
      | _ => [ComplaintBox (BoxOffset id (lenN consumed))]
      end.

Lemma leftover_filter id d st :
  inv d st -> exact st ->
  exists consumed, d = consumed ++ rest st /\
  filter (offset_box id) (leftover_box id st) =
      match rest st with
      | [] => []
      | _ => [ComplaintBox (BoxOffset id (lenN consumed))]
      end.
Proof.
  intros [(c & H1 & H2) _] [X1 X2]. exists c. split; [assumption|]. unfold leftover_box.
  destruct (eof st) eqn:Ee.
  - rewrite (X1 eq_refl). reflexivity.
  - destruct (rest st); [discriminate (X2 eq_refl)|]. simpl. rewrite N.eqb_refl, H2. reflexivity.
Qed.

Lemma leftover_other id id' st : id <> id' -> filter (offset_box id) (leftover_box id' st) = [].
Proof.
  intro H. unfold leftover_box. destruct (eof st); [reflexivity|]. simpl.
  destruct (id =? id') eqn:Ei; [apply N.eqb_eq in Ei; congruence|reflexivity].
Qed.

Lemma run_accounted E di do :
  let r := parse_streams E (option_map new_stream di) (option_map new_stream do) in
  how r = Finished ->
  (forall d, di = Some d ->
     exists i, inb r = Some i /\ exists c, d = c ++ rest i /\ pos i = lenN c /\
     filter (offset_box 1007) (yielded r) =
       match rest i with [] => [] | _ => [ComplaintBox (BoxOffset 1007 (lenN c))] end) /\
  (forall d, do = Some d ->
     exists o, outb r = Some o /\ exists c, d = c ++ rest o /\ pos o = lenN c /\
     filter (offset_box 1010) (yielded r) =
       match rest o with [] => [] | _ => [ComplaintBox (BoxOffset 1010 (lenN c))] end).
Proof.
  intros r F. pose proof (parse_streams_run E di do) as R. fold r in R.
  destruct r as [ys0 i0 o0 h0]. cbn in *. subst h0.
  assert (forall id st d, inv d st -> good st = false ->
    exists c, d = c ++ rest st /\ pos st = lenN c /\
    filter (offset_box id) (leftover_box id st) =
      match rest st with [] => [] | _ => [ComplaintBox (BoxOffset id (lenN c))] end) as LF.
  { intros id st d D G. pose proof (inv_end D G) as [X1 X2]. destruct D as [(c & H1 & H2) _].
    exists c. split; [assumption|]. split; [assumption|]. unfold leftover_box.
    destruct (eof st) eqn:Ee.
    - rewrite (X1 eq_refl). reflexivity.
    - destruct (rest st); [discriminate (X2 eq_refl)|]. simpl. rewrite N.eqb_refl, H2. reflexivity. }
  inversion R as [|di' ys i2 H Hdi|di' do' ys i2 o2 H Hdi|do' ys o2 H Hdi|do' ys o2 H Hdi
                 |di' do' ys i2 o1 H G Hdi|di' do' ys i2 o1 ys2 o2 H G H2 Hdi
                 |di' do' ys i2 o1 ys2 o2 H G H2 Hdi]; subst.
  - split; intros; discriminate.
  - split; [|intros; discriminate]. intros d K. injection K as <-. exists i2. split; [reflexivity|].
    destruct (inbound_inv H) as (I1 & _ & I3).
    destruct (LF 1007 i2 di') as (c & C1 & C2 & C3); [apply I1, inv_new|auto|].
    exists c. rewrite filter_app, (inbound_plain 1007 H), C3. auto.
  - split; [intros; discriminate|]. intros d K. injection K as <-. exists o2. split; [reflexivity|].
    destruct (outbound_inv H) as (I1 & I3).
    destruct (LF 1010 o2 do') as (c & C1 & C2 & C3); [apply I1, inv_new|auto|].
    exists c. rewrite filter_app, (outbound_plain 1010 H), C3. auto.
  - destruct (inbound_inv H) as (I1 & I2 & I3).
    split; intros d K; injection K as <-.
    + exists i2. split; [reflexivity|].
      destruct (LF 1007 i2 di') as (c & C1 & C2 & C3); [apply I1, inv_new|auto|].
      exists c. rewrite !filter_app, (inbound_plain 1007 H), C3, leftover_other, app_nil_r by discriminate.
      auto.
    + exists o1. split; [reflexivity|].
      destruct (I2 do' (new_stream do') eq_refl (inv_new do')) as (b & Eb & Ib). injection Eb as <-.
      destruct (LF 1010 o1 do') as (c & C1 & C2 & C3); [assumption|assumption|].
      exists c. rewrite !filter_app, (inbound_plain 1010 H), C3, leftover_other by discriminate. auto.
  - destruct (inbound_inv H) as (I1 & I2 & I3). destruct (outbound_inv H2) as (J1 & J3).
    split; intros d K; injection K as <-.
    + exists i2. split; [reflexivity|].
      destruct (LF 1007 i2 di') as (c & C1 & C2 & C3); [apply I1, inv_new|auto|].
      exists c. rewrite !filter_app. cbn [filter offset_box app]. rewrite !filter_app, (inbound_plain 1007 H), C3, (outbound_plain 1007 H2),
        leftover_other by discriminate.
      simpl. rewrite !app_nil_r. auto.
    + exists o2. split; [reflexivity|].
      destruct (I2 do' (new_stream do') eq_refl (inv_new do')) as (b & Eb & Ib). injection Eb as <-.
      destruct (LF 1010 o2 do') as (c & C1 & C2 & C3); [auto|auto|].
      exists c. rewrite !filter_app. cbn [filter offset_box app]. rewrite !filter_app, (inbound_plain 1010 H), C3, (outbound_plain 1010 H2),
        leftover_other by discriminate.
      auto.
Qed.
