(** Whole conversations: [parse_streams] yields exactly the exchanges that are
    on the wire, and whatever it yields cleanly was on the wire. *)
From Verif Require Import Base Stream StreamProofs Framing FramingBasics FramingRuns FramingTop
  FramingSpec FramingWire FramingMessages.
From Coq Require Import ZifyBool ZifyNat ZifyN.
Unset Strict Implicit.

(** A stream in good order at offset [a] with [w] ahead. *)
Record ready (st : stream) (a : N) (w : str) : Prop := mkReady {
  rd_rest : rest st = w;
  rd_pos : pos st = a;
  rd_eof : eof st = is_nil w;
  rd_sane : sane st = true;
  rd_pending : pending st = []
}.

Lemma ready_new w : w <> [] -> ready (new_stream w) 0 w.
Proof. intro H. constructor; simpl; auto. destruct w; [congruence|reflexivity]. Qed.

Lemma ready_good st a w : ready st a w -> good st = negb (is_nil w).
Proof. intros [_ _ H S _]. unfold good. now rewrite S, H. Qed.

Lemma ready_moved st a w tail st' :
  ready st a (w ++ tail) -> moved st w [] st' -> rest st' = tail -> ready st' (a + lenN w) tail.
Proof.
  intros [A1 A2 A3 A4 A5] [B1 B2 B3 B4 B5] R. constructor; auto.
  - now rewrite B2, A2.
  - rewrite B3, A3, R. destruct tail; [apply orb_true_r|]. destruct w; reflexivity.
  - congruence.
  - now rewrite B5, A5.
Qed.

Lemma ready_moved' st a w w' st' :
  ready st a w -> moved st w' [] st' -> exists tail, w = w' ++ tail /\ ready st' (a + lenN w') tail.
Proof.
  intros R M. pose proof (mv_rest M) as K. rewrite (rd_rest R) in K. exists (rest st').
  split; [assumption|]. rewrite K in R. eapply ready_moved; eauto.
Qed.

(** * Single responses *)

Lemma set_rs_msg_eq r m v s' x :
  rs_version r = v -> rs_status r = s' -> rs_reason r = x -> rs_msg r = m ->
  set_rs_msg m (mkResponse v s' x (rs_msg r)) = r.
Proof. destruct r; cbn. intros; subst; reflexivity. Qed.

Lemma pos_length (x : str) : x <> [] -> (0 < List.length x)%nat.
Proof. destruct x; [congruence|simpl; lia]. Qed.

Lemma line_not_nil l x : render_line l ++ x <> [].
Proof.
  intro K. pose proof (render_length_pos l) as P. apply app_eq_nil in K. destruct K as [K _].
  rewrite K in P. simpl in P. lia.
Qed.

Lemma request_wire_pos E a r w : request_on_wire E a r w -> w <> [].
Proof.
  intros (es & b & tr & ids1 & ids2 & w1 & w2 & (_ & _ & _ & l & ids & w' & _ & _ & _ & -> & _) & _ & -> & _) K.
  rewrite <- app_assoc in K.
  apply (line_not_nil K).
Qed.

Lemma heading_wire_pos v st x es ids w : response_heading_on_wire v st x es ids w -> w <> [].
Proof.
  intros (_ & d & l & ids' & w' & _ & _ & _ & _ & _ & -> & _) K.
  apply (line_not_nil K).
Qed.

Lemma response_wire_pos E req a r w last : response_on_wire E req a r w last -> w <> [].
Proof.
  intros (es & b & tr & ids1 & ids2 & w1 & w2 & H & _ & -> & _) K.
  apply app_eq_nil in K. apply heading_wire_pos in H. tauto.
Qed.

Lemma responses_wire_pos E req a rs w f : responses_on_wire E req a rs w f -> w <> [].
Proof.
  destruct 1 as [a r w last H _|a r w (es & ids & H & _)|a r w H _|a r w rs ws f H _ _].
  - eapply response_wire_pos; eauto.
  - eapply heading_wire_pos; eauto.
  - eapply response_wire_pos; eauto.
  - apply response_wire_pos in H. intro K. apply app_eq_nil in K. tauto.
Qed.

Lemma complain_fresh id es tr b off p ids :
  msg_complain (mkNote id CtxNone) (mkMessage es tr b off (place_notes p ids)) =
  mkMessage es tr b off (place_notes p ids ++ [mkNote id CtxNone]).
Proof.
  assert (existsb (note_eqb (mkNote id CtxNone)) (place_notes p ids) = false) as F.
  { unfold place_notes. induction (once [] ids) as [|x l IH]; [auto|]. cbn.
    unfold note_eqb in *. cbn in *. now rewrite !andb_false_r. }
  unfold msg_complain, add_note. cbn [notes entries trailer mbody offset]. now rewrite F.
Qed.

Definition response_step (E : env) (req : option request) : M response :=
  r <- parse_response_heading ;;
  m <- parse_response_body E req r.(rs_status) r.(rs_msg) ;;
  ret (set_rs_msg m r).

Lemma one_response_complete E req a r w last st tail :
  response_on_wire E req a r w last -> (last = true -> tail = []) -> ready st a (w ++ tail) ->
  exists st', response_step E req st = (Val r, st') /\ ready st' (a + lenN w) tail.
Proof.
  intros (es & b & tr & ids1 & ids2 & w1 & w2 & H1 & H2 & -> & H3) L R.
  pose proof (rd_rest R) as Rr. rewrite <- app_assoc in Rr.
  destruct (response_heading_complete H1 (rd_pending R) Rr) as (st1 & Q1 & Q2 & Q3).
  set (m := mkMessage es [] (Unavail None) (pos st) (place_notes ResponseHeading ids1)) in *.
  assert (pending st1 = []) as P1 by (rewrite (mv_pending Q2), (rd_pending R); reflexivity).
  destruct (@response_body_complete E req (rs_status r) es b tr ids2 w2 last m st1 tail)
    as (st2 & K1 & K2 & K3); auto.
  { eapply moved_settled; eauto. }
  { intro id. apply heading_notes_fresh. }
  pose proof (moved_trans Q2 K2) as M.
  exists st2. split; [|eapply ready_moved; eauto].
  unfold response_step. rewrite (bind_val _ Q1). cbn [rs_status rs_msg]. rewrite (bind_val _ K1).
  unfold ret, set_rs_msg. cbn. rewrite (rd_pos R), <- H3. destruct r; reflexivity.
Qed.

Lemma switching_complete E req a r w st tail :
  switching_on_wire req a r w -> ready st a (w ++ tail) ->
  exists st', response_step E req st = (Val r, set_sane false st') /\ ready st' (a + lenN w) tail.
Proof.
  intros (es & ids1 & H1 & H2 & H3) R.
  destruct (response_heading_complete H1 (rd_pending R) (rd_rest R)) as (st1 & Q1 & Q2 & Q3).
  exists st1. split; [|eapply ready_moved; eauto].
  unfold response_step. rewrite (bind_val _ Q1). cbn [rs_status rs_msg].
  unfold parse_response_body. apply switches_iff in H2.
  destruct (rs_status r =? 101) eqn:S.
  - unfold bind, set_insane, ret, set_body. cbn [entries trailer offset notes].
    rewrite complain_fresh, (rd_pos R), <- H3. destruct r; reflexivity.
  - cbn [orb] in H2. rewrite H2. unfold bind, set_insane, ret, set_body. cbn [entries trailer offset notes].
    rewrite complain_fresh, (rd_pos R), <- H3. destruct r; reflexivity.
Qed.

Lemma one_response_sound E req a w r st st' :
  ready st a w -> response_step E req st = (Val r, st') -> clean_response r = true ->
  (exists wr tail last, w = wr ++ tail /\ response_on_wire E req a r wr last /\
     (last = true -> tail = []) /\ ready st' (a + lenN wr) tail) \/
  (exists wr tail st2, w = wr ++ tail /\ switching_on_wire req a r wr /\
     ready st2 (a + lenN wr) tail /\ st' = set_sane false st2).
Proof.
  intros R H B. unfold response_step in H. bind_cases H. bind_cases H2. injection H3 as <- <-.
  destruct (response_heading_sound (rd_pending R) H1) as (es & ids & w1 & Hw & Hm & M1).
  assert (pending st1 = []) as P1 by (rewrite (mv_pending M1), (rd_pending R); reflexivity).
  rewrite Hm in H0. unfold clean_response in B. cbn [set_rs_msg rs_msg] in B.
  rewrite (rd_pos R) in *.
  destruct ((rs_status a0 =? 101) || (method_is "CONNECT" req && successful (rs_status a0))) eqn:Sw.
  - right. destruct (ready_moved' R M1) as (tail & -> & R1). exists w1, tail, st1.
    pose proof Sw as Sw'. apply switches_iff in Sw'.
    split; [reflexivity|]. split; [|split; [assumption|]].
    + exists es, ids. split; [exact Hw|]. split; [exact Sw'|]. unfold parse_response_body in H0.
      cbn [set_rs_msg rs_status rs_msg].
      destruct (rs_status a0 =? 101) eqn:S1.
      * unfold set_insane, set_body in H0. cbn [entries trailer offset notes] in H0.
        rewrite complain_fresh in H0. now injection H0 as <- <-.
      * cbn [orb] in Sw. rewrite Sw in H0.
        unfold set_insane, set_body in H0. cbn [entries trailer offset notes] in H0.
        rewrite complain_fresh in H0. now injection H0 as <- <-.
    + unfold parse_response_body in H0. destruct (rs_status a0 =? 101).
      * now injection H0 as _ <-.
      * cbn [orb] in Sw. rewrite Sw in H0. now injection H0 as _ <-.
  - left. apply response_body_sound in H0; auto.
    + destruct H0 as (b & tr & ids2 & w2 & last & Bw & M2 & L & ->). cbn [entries offset notes] in *.
      pose proof (moved_trans M1 M2) as M. cbn [app] in M.
      destruct (ready_moved' R M) as (tail & -> & R1).
      exists (w1 ++ w2), tail, last. split; [reflexivity|].
      split; [|split; [|assumption]].
      * exists es, b, tr, ids, ids2, w1, w2. split; [exact Hw|]. auto.
      * intro K. specialize (L K). now rewrite (rd_rest R1) in L.
    + eapply moved_settled; eauto.
    + intro id. apply heading_notes_fresh.
    + rewrite switches_iff. congruence.
Qed.

(** * Groups of responses *)

Lemma responses_step fuel E req acc st :
  good st = true ->
  responses_loop (S fuel) E req acc st =
  match response_step E req st with
  | (Val r, st') =>
      if negb (informational r.(rs_status)) || (r.(rs_status) =? 101)
      then (Val (acc ++ [r], None), st')
      else responses_loop fuel E req (acc ++ [r]) st'
  | (e, st') =>
      match parse_response_heading st with
      | (ParseErr e, st') => (Val (acc, Some (BoxError 1009 e)), st')
      | _ => match e with
             | Val _ => (Fuel, st') | ParseErr x => (ParseErr x, st')
             | TooLong z => (TooLong z, st') | ValueErr => (ValueErr, st') | Fuel => (Fuel, st')
             end
      end
  end.
Proof.
  intro G. cbn [responses_loop]. rewrite G. unfold response_step. unfold bind at 2.
  destruct (parse_response_heading st) as [[r|e|z| |] st1]; try reflexivity.
  unfold bind. destruct (parse_response_body E req (rs_status r) (rs_msg r) st1) as [[m|e|z| |] st2];
    try reflexivity.
  cbv zeta. unfold ret. cbn [set_rs_msg rs_status].
  destruct (negb (informational (rs_status r)) || (rs_status r =? 101)); reflexivity.
Qed.

Lemma responses_complete E req a rs w f : responses_on_wire E req a rs w f ->
  forall fuel acc st tail,
  ready st a (w ++ tail) -> (f <> Switched -> follows f tail) -> (List.length (w ++ tail) < fuel)%nat ->
  exists st', responses_loop fuel E req acc st =
      (Val (acc ++ rs, None), if match f with Switched => true | _ => false end
                              then set_sane false st' else st') /\
    ready st' (a + lenN w) tail.
Proof.
  induction 1 as [a r w last H N|a r w H|a r w H N|a r w rs ws f H N H2 IH];
    intros fuel acc st tail R L Fu; (destruct fuel as [|fuel]; [lia|]).
  - pose proof (ready_good R) as G. rewrite (responses_step fuel E req acc).
    2:{ rewrite G. apply response_wire_pos in H. destruct w; [congruence|reflexivity]. }
    assert (last = true -> tail = []) as L' by (intro; subst last; apply L; discriminate).
    destruct (one_response_complete H L' R) as (st1 & Q1 & Q2).
    exists st1. rewrite Q1.
    assert (informational (rs_status r) = false) as -> by (unfold informational; lia).
    cbn [negb orb]. split; [destruct last; reflexivity|assumption].
  - pose proof (ready_good R) as G. rewrite (responses_step fuel E req acc).
    2:{ rewrite G. destruct H as (es & ids & H & _). apply heading_wire_pos in H. destruct w; [congruence|reflexivity]. }
    destruct (switching_complete E H R) as (st1 & Q1 & Q2).
    exists st1. rewrite Q1. split; [|assumption].
    destruct H as (es & ids & _ & [->|[H _]] & _); [now rewrite orb_true_r|].
    assert (informational (rs_status r) = false) as -> by (unfold informational; lia). reflexivity.
  - pose proof (ready_good R) as G. rewrite (responses_step fuel E req acc).
    2:{ rewrite G. apply response_wire_pos in H. destruct w; [congruence|reflexivity]. }
    assert (tail = []) as -> by (apply L; discriminate).
    destruct (@one_response_complete E req a r w false st [] H ltac:(auto) R) as (st1 & Q1 & Q2).
    exists st1. rewrite Q1.
    assert (informational (rs_status r) = true) as -> by (unfold informational; lia).
    assert (rs_status r =? 101 = false) as ->.
    { destruct H as (es & b & tr & i1 & i2 & w1 & w2 & _ & Hb & _).
      apply N.eqb_neq. intro K. destruct Hb;
        match goal with H : ~ switches _ _ |- _ => apply H; now left end. }
    cbn [negb orb]. destruct fuel as [|fuel].
    { rewrite app_nil_r in Fu. apply response_wire_pos in H. destruct w; [congruence|simpl in Fu; lia]. }
    cbn [responses_loop]. rewrite (ready_good Q2). cbn. auto.
  - rewrite <- app_assoc in R. pose proof (ready_good R) as G. rewrite (responses_step fuel E req acc).
    2:{ rewrite G. apply response_wire_pos in H. destruct w; [congruence|reflexivity]. }
    destruct (@one_response_complete E req a r w false st (ws ++ tail) H ltac:(discriminate) R) as (st1 & Q1 & Q2).
    rewrite Q1.
    assert (informational (rs_status r) = true) as -> by (unfold informational; lia).
    assert (rs_status r =? 101 = false) as ->.
    { destruct H as (es & b & tr & i1 & i2 & w1 & w2 & _ & Hb & _).
      apply N.eqb_neq. intro K. destruct Hb;
        match goal with H : ~ switches _ _ |- _ => apply H; now left end. }
    cbn [negb orb]. destruct (IH fuel (acc ++ [r]) st1 tail Q2 L) as (st2 & Q3 & Q4).
    { rewrite <- app_assoc, app_length in Fu. apply response_wire_pos, pos_length in H. lia. }
    exists st2. rewrite Q3, lenN_app, N.add_assoc, <- app_assoc. auto.
Qed.

Lemma responses_sound E req : forall fuel acc st a w rs st',
  ready st a w -> w <> [] ->
  responses_loop fuel E req acc st = (Val (acc ++ rs, None), st') ->
  forallb clean_response rs = true ->
  exists f wr tail st2, w = wr ++ tail /\ responses_on_wire E req a rs wr f /\
    (f <> Switched -> follows f tail) /\ ready st2 (a + lenN wr) tail /\
    st' = if match f with Switched => true | _ => false end then set_sane false st2 else st2.
Proof.
  induction fuel as [|fuel IH]; intros acc st a w rs st' R W H C; [discriminate|].
  rewrite responses_step in H.
  2:{ rewrite (ready_good R). destruct w; [congruence|reflexivity]. }
  destruct (response_step E req st) as [o1 st1] eqn:S.
  destruct o1 as [r|e|z| |];
    try (destruct (parse_response_heading st) as [[| | | |] ?]; congruence).
  assert (forall l, acc ++ [r] ++ l = acc ++ rs -> rs = r :: l) as AI.
  { intros l K. apply app_inv_head in K. now rewrite <- K. }
  destruct (negb (informational (rs_status r)) || (rs_status r =? 101)) eqn:F.
  - injection H as H <-. rewrite <- (app_nil_r [r]) in H. apply AI in H. subst rs.
    cbn in C. rewrite andb_true_r in C.
    destruct (one_response_sound R S C) as [(wr & tail & last & -> & Hw & L & R1)|(wr & tail & st2 & -> & Hw & R1 & ->)].
    + exists (if last then Closed else More), wr, tail, st1.
      assert (~ (100 <= rs_status r <= 199)) as NI.
      { intro K. destruct (rs_status r =? 101) eqn:E1.
        - destruct Hw as (es & b & tr & i1 & i2 & w1 & w2 & _ & Hb & _).
          destruct Hb; match goal with H : ~ switches _ _ |- _ => apply H; left; lia end.
        - unfold informational in F. lia. }
      split; [reflexivity|]. split; [now constructor|]. split; [destruct last; cbn; auto|].
      split; [assumption|]. destruct last; reflexivity.
    + exists Switched, wr, tail, st2. split; [reflexivity|]. split; [now constructor|].
      split; [congruence|]. auto.
  - assert (exists l, rs = r :: l) as (l & ->).
    { clear - H AI. cut (exists l, acc ++ rs = (acc ++ [r]) ++ l).
      { intros (l & K). exists l. apply AI. now rewrite <- app_assoc in K. }
      revert H. generalize (acc ++ rs) as X. generalize (acc ++ [r]) as A.
      clear. revert st1. induction fuel as [|fuel IH]; intros st1 A X H; [discriminate|].
      destruct (good st1) eqn:G.
      2:{ cbn [responses_loop] in H. rewrite G in H. injection H as -> _. exists []. now rewrite app_nil_r. }
      rewrite responses_step in H by assumption.
      destruct (response_step E req st1) as [[q|e|z| |] st2];
        try (destruct (parse_response_heading st1) as [[| | | |] ?]; congruence).
      destruct (_ || _).
      - injection H as <- _. exists [q]. reflexivity.
      - apply IH in H. destruct H as (l & ->). exists (q :: l). now rewrite <- app_assoc. }
    cbn in C. apply andb_true_iff in C. destruct C as [C1 C2].
    assert (100 <= rs_status r <= 199 /\ rs_status r <> 101) as [NI N1].
    { unfold informational in F. lia. }
    destruct (one_response_sound R S C1) as [(wr & tail & last & -> & Hw & L & R1)|(wr & tail & st2 & -> & Hw & R1 & ->)].
    + assert (last = false) as ->.
      { destruct Hw as (es & b & tr & i1 & i2 & w1 & w2 & _ & Hb & _).
        destruct Hb; try reflexivity; exfalso;
          match goal with H : ~ bodiless _ _ |- _ => apply H; now left end. }
      replace (acc ++ r :: l) with ((acc ++ [r]) ++ l) in H by (now rewrite <- app_assoc).
      destruct tail as [|c tail].
      * destruct fuel as [|fuel]; [discriminate|]. cbn [responses_loop] in H.
        rewrite (ready_good R1) in H. cbn in H. injection H as H <-.
        assert (l = []) as -> by (rewrite <- (app_nil_r (acc ++ [r])) in H at 1; now apply app_inv_head in H).
        exists Closed, wr, [], st1. split; [reflexivity|]. split; [now constructor|].
        split; [reflexivity|]. auto.
      * destruct (IH _ _ _ _ _ _ R1 ltac:(discriminate) H C2) as (f & wr2 & tail2 & st2 & -> & Hr & Fo & R2 & ->).
        exists f, (wr ++ wr2), tail2, st2. rewrite app_assoc, lenN_app, N.add_assoc.
        split; [reflexivity|]. split; [now constructor|]. auto.
    + exfalso. destruct Hw as (es & ids & _ & [K|[K _]] & _); [congruence|lia].
Qed.

(** * Conversations *)

(** The part of [parse_streams] after the loop over the inbound stream. *)
Definition finish_run (E : env) (r1 : result) : result :=
  match r1.(how) with
  | Finished =>
      let acc := r1.(yielded) ++
                 match r1.(inb) with
                 | Some i => if i.(eof) then [] else [ComplaintBox (BoxOffset 1007 i.(pos))]
                 | None => []
                 end in
      match r1.(outb) with
      | Some o =>
          let r2 := if good o then
                      let acc := acc ++ match r1.(inb) with
                                        | Some _ => [ComplaintBox (BoxPlain 1008)]
                                        | None => []
                                        end in
                      orphans_loop (loop_fuel o) E acc r1.(inb) o
                    else mkResult acc r1.(inb) (Some o) Finished in
          match r2.(how), r2.(outb) with
          | Finished, Some o' =>
              mkResult (r2.(yielded) ++
                        if o'.(eof) then [] else [ComplaintBox (BoxOffset 1010 o'.(pos))])
                       r2.(inb) (Some o') Finished
          | _, _ => r2
          end
      | None => mkResult acc r1.(inb) None Finished
      end
  | _ => r1
  end.

Lemma parse_streams_finish E i o :
  parse_streams E (Some i) o = finish_run E (requests_loop (loop_fuel i) E [] i o).
Proof. reflexivity. Qed.

Lemma unread_ready id st a w : ready st a w ->
  (if eof st then [] else [ComplaintBox (BoxOffset id (pos st))]) = unread_box id a w.
Proof. intros [A1 A2 A3 A4 A5]. rewrite A3, A2. destruct w; reflexivity. Qed.

Lemma orphans_complete E a ys w : orphans_on_wire E a ys w ->
  forall fuel acc i o, ready o a w -> (List.length w < fuel)%nat ->
  exists ys1 o', orphans_loop fuel E acc i o = mkResult (acc ++ ys1) i (Some o') Finished /\
    ys1 ++ (if eof o' then [] else [ComplaintBox (BoxOffset 1010 (pos o'))]) = ys.
Proof.
  induction 1 as [a|a rs w f ys tail H Fo H2 IH|a rs w tunnel H]; intros fuel acc i o R Fu;
    (destruct fuel as [|fuel]; [lia|]); cbn [orphans_loop].
  - rewrite (ready_good R). cbn [is_nil negb]. exists [], o. rewrite app_nil_r. split; [reflexivity|].
    now rewrite (rd_eof R).
  - assert (w ++ tail <> []) as NE.
    { apply responses_wire_pos in H. intro K. apply app_eq_nil in K. tauto. }
    rewrite (ready_good R). replace (is_nil (w ++ tail)) with false by (destruct (w ++ tail); [congruence|reflexivity]).
    cbn [negb]. unfold parse_responses.
    destruct (@responses_complete _ _ _ _ _ _ H (S (List.length (rest o))) [] _ _ R) as (st2 & Q1 & Q2).
    { auto. } { rewrite (rd_rest R). lia. }
    rewrite Q1. cbn [app].
    assert ((if match f with Switched => true | _ => false end then set_sane false st2 else st2) = st2) as ->
      by (destruct f; [reflexivity|reflexivity|destruct Fo]).
    assert (is_nil rs = false) as -> by (destruct H; reflexivity).
    destruct (IH fuel (acc ++ [Exchange None rs]) i st2 Q2) as (ys1 & o' & K1 & K2).
    { rewrite app_length in Fu. apply responses_wire_pos, pos_length in H. lia. }
    exists (Exchange None rs :: ys1), o'. cbn [opt_box app]. rewrite K1, <- app_assoc. split; [reflexivity|].
    now rewrite <- K2.
  - assert (w ++ tunnel <> []) as NE.
    { apply responses_wire_pos in H. intro K. apply app_eq_nil in K. tauto. }
    rewrite (ready_good R). replace (is_nil (w ++ tunnel)) with false by (destruct (w ++ tunnel); [congruence|reflexivity]).
    cbn [negb]. unfold parse_responses.
    destruct (@responses_complete _ _ _ _ _ _ H (S (List.length (rest o))) [] _ _ R) as (st2 & Q1 & Q2).
    { congruence. } { rewrite (rd_rest R). lia. }
    rewrite Q1. cbn [app].
    assert (is_nil rs = false) as -> by (destruct H; reflexivity).
    destruct fuel as [|fuel]; [destruct (w ++ tunnel); [congruence|simpl in Fu; lia]|].
    cbn [orphans_loop]. unfold good at 1. cbn [sane set_sane andb].
    exists [Exchange None rs], (set_sane false st2). cbn [opt_box]. rewrite app_nil_r. split; [reflexivity|].
    cbn [eof pos set_sane]. now rewrite (unread_ready 1010 Q2).
Qed.

Lemma conversation_complete E ai ao ys wi wo : conversation E ai ao ys wi wo ->
  forall fuel acc i o, ready i ai wi -> ready o ao wo -> (List.length wi < fuel)%nat ->
  exists i2 o2, finish_run E (requests_loop fuel E acc i (Some o)) =
    mkResult (acc ++ ys) i2 o2 Finished.
Proof.
  induction 1 as [ai ao|ai ao ys wo W H|ai ao req w ys ti H H2 IH
                 |ai ao req wi rs wo f ys ti to H H1 Fo H2 IH|ai ao req wi rs wo ti to H H1];
    intros fuel acc i o Ri Ro Fu; (destruct fuel as [|fuel]; [lia|]); cbn [requests_loop];
    rewrite (ready_good Ri).
  - cbn [is_nil negb]. unfold finish_run. cbn [how yielded inb outb].
    rewrite (ready_good Ro). cbn [is_nil negb]. cbn [how yielded inb outb].
    rewrite (rd_eof Ri), (rd_eof Ro). cbn [is_nil]. rewrite !app_nil_r. eauto.
  - cbn [is_nil negb]. unfold finish_run. cbn [how yielded inb outb].
    rewrite (ready_good Ro). replace (is_nil wo) with false by (destruct wo; [congruence|reflexivity]).
    cbn [negb]. rewrite (rd_eof Ri). cbn [is_nil]. rewrite app_nil_r.
    destruct (@orphans_complete _ _ _ _ H (loop_fuel o) (acc ++ [ComplaintBox (BoxPlain 1008)]) (Some i) _ Ro) as (ys1 & o' & K1 & K2).
    { unfold loop_fuel. rewrite (rd_rest Ro). lia. }
    rewrite K1. cbn [how yielded inb outb]. rewrite <- K2, <- !app_assoc. eauto.
  - assert (w ++ ti <> []) as NE.
    { apply request_wire_pos in H. intro K. apply app_eq_nil in K. tauto. }
    replace (is_nil (w ++ ti)) with false by (destruct (w ++ ti); [congruence|reflexivity]). cbn [negb].
    rewrite <- (rd_pos Ri) in H.
    destruct (request_complete H (rd_pending Ri) (rd_rest Ri)) as (i1 & Q1 & Q2 & Q3).
    rewrite Q1, (ready_good Ro). cbn [is_nil negb].
    destruct (IH fuel (acc ++ [Exchange (Some req) []]) i1 o) as (i2 & o2 & K); auto.
    { eapply ready_moved; eauto. }
    { rewrite app_length in Fu. apply request_wire_pos, pos_length in H. lia. }
    rewrite K. rewrite <- app_assoc. eauto.
  - assert (wi ++ ti <> [] /\ wo ++ to <> []) as [NE NE'].
    { apply request_wire_pos in H. apply responses_wire_pos in H1.
      split; intro K; apply app_eq_nil in K; tauto. }
    replace (is_nil (wi ++ ti)) with false by (destruct (wi ++ ti); [congruence|reflexivity]). cbn [negb].
    rewrite <- (rd_pos Ri) in H.
    destruct (request_complete H (rd_pending Ri) (rd_rest Ri)) as (i1 & Q1 & Q2 & Q3).
    rewrite Q1, (ready_good Ro). replace (is_nil (wo ++ to)) with false by (destruct (wo ++ to); [congruence|reflexivity]).
    cbn [negb]. unfold parse_responses.
    destruct (@responses_complete _ _ _ _ _ _ H1 (S (List.length (rest o))) [] _ _ Ro) as (o1 & K1 & K2).
    { auto. } { rewrite (rd_rest Ro). lia. }
    rewrite K1. cbn [app].
    assert ((if match f with Switched => true | _ => false end then set_sane false o1 else o1) = o1) as ->
      by (destruct f; [reflexivity|reflexivity|destruct Fo]).
    assert (ends_http req rs = false) as ->.
    { clear - H1 Fo. unfold ends_http, last_response.
      remember (Some req) as oq. induction H1 as [a r w last H N|a r w H|a r w H N|a r w rs ws f H N H2 IH].
      - cbn. apply not_true_iff_false. subst oq. rewrite <- switches_iff.
        destruct H as (es & b & tr & i1 & i2 & w1 & w2 & _ & Hb & _). now destruct Hb.
      - destruct Fo.
      - cbn. apply not_true_iff_false. subst oq. rewrite <- switches_iff.
        destruct H as (es & b & tr & i1 & i2 & w1 & w2 & _ & Hb & _). now destruct Hb.
      - specialize (IH Fo). cbn [rev]. destruct (rev rs) as [|x l] eqn:Rv; [|exact IH].
        apply (f_equal (@rev response)) in Rv. rewrite rev_involutive in Rv. subst rs. inversion H2. }
    cbn [opt_box].
    destruct (IH fuel (acc ++ [Exchange (Some req) rs]) i1 o1) as (i2 & o2 & K); auto.
    { eapply ready_moved; eauto. }
    { rewrite app_length in Fu. apply request_wire_pos, pos_length in H. lia. }
    rewrite K. cbn [opt_box app]. rewrite <- app_assoc. eauto.
  - assert (wi ++ ti <> [] /\ wo ++ to <> []) as [NE NE'].
    { apply request_wire_pos in H. apply responses_wire_pos in H1.
      split; intro K; apply app_eq_nil in K; tauto. }
    replace (is_nil (wi ++ ti)) with false by (destruct (wi ++ ti); [congruence|reflexivity]). cbn [negb].
    rewrite <- (rd_pos Ri) in H.
    destruct (request_complete H (rd_pending Ri) (rd_rest Ri)) as (i1 & Q1 & Q2 & Q3).
    rewrite Q1, (ready_good Ro). replace (is_nil (wo ++ to)) with false by (destruct (wo ++ to); [congruence|reflexivity]).
    cbn [negb]. unfold parse_responses.
    destruct (@responses_complete _ _ _ _ _ _ H1 (S (List.length (rest o))) [] _ _ Ro) as (o1 & K1 & K2).
    { congruence. } { rewrite (rd_rest Ro). lia. }
    rewrite K1. cbn [app].
    assert (ends_http req rs = true) as ->.
    { clear - H1. unfold ends_http, last_response.
      remember (Some req) as oq. remember Switched as f.
      induction H1 as [a r w last H N|a r w H|a r w H N|a r w rs ws f H N H2 IH]; try discriminate.
      - destruct last; discriminate.
      - cbn. subst oq. rewrite <- switches_iff. destruct H as (es & ids & _ & H & _). exact H.
      - specialize (IH Heqf). cbn [rev]. destruct (rev rs) as [|x l] eqn:Rv; [discriminate|exact IH]. }
    destruct fuel as [|fuel]; [destruct (wi ++ ti); [congruence|simpl in Fu; lia]|].
    cbn [requests_loop]. unfold good at 1. cbn [sane set_sane andb].
    unfold finish_run. cbn [how yielded inb outb]. unfold good. cbn [sane set_sane andb how yielded inb outb eof pos].
    rewrite (unread_ready 1010 K2), (unread_ready 1007 (ready_moved Ri Q2 Q3)).
    cbn [opt_box app]. rewrite <- !app_assoc. eauto.
Qed.

Theorem conversation_parsed E ys wi wo :
  wi <> [] -> wo <> [] -> conversation E 0 0 ys wi wo ->
  let r := parse_streams E (Some (new_stream wi)) (Some (new_stream wo)) in
  how r = Finished /\ yielded r = ys.
Proof.
  intros Wi Wo H. cbv zeta. rewrite parse_streams_finish.
  destruct (@conversation_complete _ _ _ _ _ _ H (loop_fuel (new_stream wi)) [] (new_stream wi) (new_stream wo)) as (i2 & o2 & K); auto using ready_new.
  { unfold loop_fuel. simpl. lia. }
  rewrite K. auto.
Qed.

(** Inbound alone. *)
Lemma inbound_complete E ai ao ys wi : conversation E ai ao ys wi [] ->
  forall fuel acc i, ready i ai wi -> (List.length wi < fuel)%nat ->
  exists i2, finish_run E (requests_loop fuel E acc i None) = mkResult (acc ++ ys) i2 None Finished.
Proof.
  intro H. remember [] as wo. induction H as [ai ao|ai ao ys wo W H|ai ao req w ys ti H H2 IH
                 |ai ao req wi rs wo f ys ti to H H1 Fo H2 IH|ai ao req wi rs wo ti to H H1];
    intros fuel acc i Ri Fu; (destruct fuel as [|fuel]; [lia|]); cbn [requests_loop];
    try rewrite (ready_good Ri).
  - cbn. rewrite (rd_eof Ri). cbn. rewrite !app_nil_r. eauto.
  - congruence.
  - assert (w ++ ti <> []) as NE.
    { apply request_wire_pos in H. intro K. apply app_eq_nil in K. tauto. }
    replace (is_nil (w ++ ti)) with false by (destruct (w ++ ti); [congruence|reflexivity]). cbn [negb].
    rewrite <- (rd_pos Ri) in H.
    destruct (request_complete H (rd_pending Ri) (rd_rest Ri)) as (i1 & Q1 & Q2 & Q3).
    rewrite Q1.
    destruct (IH eq_refl fuel (acc ++ [Exchange (Some req) []]) i1) as (i2 & K); auto.
    { eapply ready_moved; eauto. }
    { rewrite app_length in Fu. apply request_wire_pos, pos_length in H. lia. }
    rewrite K. rewrite <- app_assoc. eauto.
  - exfalso. apply app_eq_nil in Heqwo. apply responses_wire_pos in H1. tauto.
  - exfalso. apply app_eq_nil in Heqwo. apply responses_wire_pos in H1. tauto.
Qed.

Theorem requests_parsed E ys wi :
  wi <> [] -> conversation E 0 0 ys wi [] ->
  let r := parse_streams E (Some (new_stream wi)) None in
  how r = Finished /\ yielded r = ys.
Proof.
  intros Wi H. cbv zeta. rewrite parse_streams_finish.
  destruct (@inbound_complete _ _ _ _ _ H (loop_fuel (new_stream wi)) [] (new_stream wi)) as (i2 & K); auto using ready_new.
  { unfold loop_fuel. simpl. lia. }
  rewrite K. auto.
Qed.

Theorem responses_parsed E ys wo :
  wo <> [] -> orphans_on_wire E 0 ys wo ->
  let r := parse_streams E None (Some (new_stream wo)) in
  how r = Finished /\ yielded r = ys.
Proof.
  intros Wo H. cbv zeta. unfold parse_streams. cbn [how yielded inb outb app].
  change (good (new_stream wo)) with true. cbv iota.
  destruct (@orphans_complete _ _ _ _ H (loop_fuel (new_stream wo)) [] None _ (ready_new Wo)) as (ys1 & o' & K1 & K2).
  { unfold loop_fuel. simpl. lia. }
  rewrite K1. cbn [how yielded inb outb app]. auto.
Qed.

(** * The other way round: what is yielded cleanly was on the wire *)

Lemma parse_responses_sound E req st a w rs rb st' :
  ready st a w -> w <> [] -> parse_responses E req st = (Val (rs, rb), st') ->
  forallb clean_response rs = true -> forallb clean_exchange (opt_box rb) = true ->
  rb = None /\
  exists f wr tail st2, w = wr ++ tail /\ responses_on_wire E req a rs wr f /\
    (f <> Switched -> follows f tail) /\ ready st2 (a + lenN wr) tail /\
    st' = if match f with Switched => true | _ => false end then set_sane false st2 else st2.
Proof.
  intros R W H C B. unfold parse_responses in H.
  assert (rb = None) as ->.
  { destruct rb as [b|]; [|reflexivity]. apply responses_box_kind in H. destruct H as (e & H).
    subst b. discriminate. }
  split; [reflexivity|]. eapply responses_sound with (acc := []); eauto.
Qed.

Lemma ends_http_switched E req a rs w f :
  responses_on_wire E (Some req) a rs w f ->
  ends_http req rs = match f with Switched => true | _ => false end.
Proof.
  unfold ends_http, last_response. remember (Some req) as oq.
  induction 1 as [a r w last H N|a r w H|a r w H N|a r w rs ws f H N H2 IH].
  - cbn. replace (match _ with Switched => true | _ => false end) with false by (destruct last; reflexivity).
    apply not_true_iff_false. rewrite <- switches_iff.
    destruct H as (es & b & tr & i1 & i2 & w1 & w2 & _ & Hb & _). now destruct Hb.
  - cbn. rewrite <- switches_iff. destruct H as (es & ids & _ & H & _). exact H.
  - cbn. apply not_true_iff_false. rewrite <- switches_iff.
    destruct H as (es & b & tr & i1 & i2 & w1 & w2 & _ & Hb & _). now destruct Hb.
  - cbn [rev]. rewrite <- IH. destruct (rev rs) as [|x l] eqn:Rv; [|reflexivity].
    apply (f_equal (@rev response)) in Rv. rewrite rev_involutive in Rv. subst rs. inversion H2.
Qed.

Lemma outbound_sound E o ys o2 h : outbound_run E o ys o2 h -> h = Finished ->
  forall a w, ready o a w -> forallb clean_exchange ys = true ->
  orphans_on_wire E a (ys ++ leftover_box 1010 o2) w.
Proof.
  induction 1 as [o G|o rs rb o' ys o2 h G P N R IH|o o' G P]; intros Hh a w Rd C; [| |discriminate].
  - rewrite (ready_good Rd) in G. destruct w; [|discriminate].
    unfold leftover_box. rewrite (rd_eof Rd). constructor.
  - rewrite (ready_good Rd) in G. assert (w <> []) as W by (destruct w; [discriminate|congruence]).
    rewrite forallb_app in C. apply andb_true_iff in C. destruct C as [C1 C2].
    rewrite forallb_app in C2. apply andb_true_iff in C2. destruct C2 as [C2 C3].
    assert (forallb clean_response rs = true) as C1'.
    { destruct rs; [reflexivity|]. cbn [is_nil forallb] in C1. rewrite andb_true_r in C1. exact C1. }
    destruct (parse_responses_sound Rd W P C1' C2) as [-> (f & wr & tail & st2 & -> & Hr & Fo & R2 & ->)].
    assert (is_nil rs = false) as -> by (destruct Hr; reflexivity). cbn [opt_box app].
    destruct f.
    + apply ow_step with (f := More); [assumption|exact I|]. apply IH; auto.
    + apply ow_step with (f := Closed); [assumption|apply Fo; discriminate|]. apply IH; auto.
    + assert (ys = [] /\ o2 = set_sane false st2) as [-> ->] by (inversion R; subst; auto; discriminate).
      cbn [app]. unfold leftover_box. cbn [eof pos set_sane]. rewrite (unread_ready 1010 R2).
      now apply ow_switch.
Qed.

Lemma inbound_sound E i oo ys i2 oo2 h : inbound_run E i oo ys i2 oo2 h -> h = Finished ->
  forall o o2, oo = Some o -> oo2 = Some o2 ->
  forall ai wi ao wo, ready i ai wi -> ready o ao wo -> forallb clean_exchange ys = true ->
  (exists ai' ao' to, eof i2 = true /\ ready o2 ao' to /\
     forall ys2, conversation E ai' ao' ys2 [] to -> conversation E ai ao (ys ++ ys2) wi wo) \/
  (sane o2 = false /\
   conversation E ai ao (ys ++ leftover_box 1007 i2 ++ leftover_box 1010 o2) wi wo).
Proof.
  induction 1 as [i oo G|i oo e i' ys i2 oo2 h G P S R IH|i oo req i' ys i2 oo2 h G P Q R IH
                 |i os req i' rs rb os' i'' ys i2 oo2 h G P Go Q Ei R IH|i oo i' G P|i os req i' os' G P Go Q];
    intros Hh o o2 Ho Ho2 ai wi ao wo Ri Ro C; try discriminate.
  - left. subst oo. injection Ho2 as <-. rewrite (ready_good Ri) in G. destruct wi; [|discriminate].
    exists ai, ao, wo. rewrite (rd_eof Ri). auto.
  - subst oo. specialize (Q o eq_refl). rewrite (ready_good Ro) in Q. destruct wo; [|discriminate].
    cbn in C. rewrite andb_true_r in C. apply andb_true_iff in C. destruct C as [C1 C2].
    destruct (request_sound (rd_pending Ri) P C1) as (w & Hw & M). rewrite (rd_pos Ri) in Hw.
    destruct (ready_moved' Ri M) as (ti & -> & Ri').
    destruct (IH Hh o o2 eq_refl Ho2 _ _ _ _ Ri' Ro C2) as [(ai' & ao' & to & K1 & K2 & K3)|(K1 & K2)].
    + left. exists ai', ao', to. split; [assumption|]. split; [assumption|]. intros ys2 H.
      cbn [app]. apply cv_unanswered; auto.
    + right. split; [assumption|]. cbn [app]. apply cv_unanswered; auto.
  - injection Ho as <-. rewrite (ready_good Ro) in Go. assert (wo <> []) as W by (destruct wo; [discriminate|congruence]).
    cbn [forallb clean_exchange] in C. apply andb_true_iff in C. destruct C as [C C2].
    apply andb_true_iff in C. destruct C as [C0 C1].
    rewrite forallb_app in C2. apply andb_true_iff in C2. destruct C2 as [C2 C3].
    destruct (request_sound (rd_pending Ri) P C0) as (w & Hw & M). rewrite (rd_pos Ri) in Hw.
    destruct (ready_moved' Ri M) as (ti & -> & Ri').
    destruct (parse_responses_sound Ro W Q C1 C2) as [-> (f & wr & tail & st2 & -> & Hr & Fo & R2 & ->)].
    rewrite (ends_http_switched Hr) in Ei. cbn [opt_box app].
    assert (f = Switched \/ f <> Switched) as [->|NS] by (destruct f; auto; right; discriminate).
    + right. subst i''. assert (ys = [] /\ i2 = set_sane false i' /\ oo2 = Some (set_sane false st2)) as (-> & -> & ->)
        by (inversion R; subst; auto; discriminate).
      injection Ho2 as <-. split; [reflexivity|]. unfold leftover_box. cbn [eof pos set_sane app].
      rewrite (unread_ready 1010 R2), (unread_ready 1007 Ri'). now apply cv_switched.
    + assert (i'' = i') as -> by (destruct f; congruence).
      replace (if match f with Switched => true | _ => false end then set_sane false st2 else st2) with st2 in *
        by (destruct f; congruence).
      destruct (IH Hh _ o2 eq_refl Ho2 _ _ _ _ Ri' R2 C3) as [(ai' & ao' & to & K1 & K2 & K3)|(K1 & K2)].
      * left. exists ai', ao', to. split; [assumption|]. split; [assumption|]. intros ys2 H.
        eapply cv_answered; eauto.
      * right. split; [assumption|]. eapply cv_answered; eauto.
Qed.

Theorem conversation_sound E wi wo :
  wi <> [] -> wo <> [] ->
  let r := parse_streams E (Some (new_stream wi)) (Some (new_stream wo)) in
  how r = Finished -> forallb clean_exchange (yielded r) = true ->
  conversation E 0 0 (yielded r) wi wo.
Proof.
  intros Wi Wo r. pose proof (@parse_streams_run E (Some wi) (Some wo)) as K. cbn [option_map] in K.
  fold r in K. clearbody r. intros Hh C.
  inversion K as [| |? ? ? ? ? K1| | |? ? ys i2 o1 K1 K2|? ? ys i2 o1 ys2 o2 K1 K2 K3|]; subst;
    cbn [how yielded] in *; try discriminate.
  - rewrite !forallb_app in C. apply andb_true_iff in C. destruct C as [C _].
    destruct (@inbound_sound _ _ _ _ _ _ _ K1 eq_refl _ _ eq_refl eq_refl _ _ _ _ (ready_new Wi) (ready_new Wo) C)
      as [(ai' & ao' & to & A1 & A2 & A3)|(A1 & A2)]; [|exact A2].
    rewrite (ready_good A2) in K2. destruct to; [|discriminate].
    unfold leftover_box. rewrite A1, (rd_eof A2). cbn. apply A3. constructor.
  - rewrite !forallb_app in C. apply andb_true_iff in C. destruct C as [C C2].
    apply andb_true_iff in C2. destruct C2 as [_ C2]. cbn in C2. apply andb_true_iff in C2. destruct C2 as [C2 _].
    destruct (@inbound_sound _ _ _ _ _ _ _ K1 eq_refl _ _ eq_refl eq_refl _ _ _ _ (ready_new Wi) (ready_new Wo) C)
      as [(ai' & ao' & to & A1 & A2 & A3)|(A1 & A2)].
    + unfold leftover_box at 1. rewrite A1. cbn [app]. apply A3.
      rewrite (ready_good A2) in K2. apply cv_orphans; [destruct to; [discriminate|congruence]|].
      eapply outbound_sound; eauto.
    + rewrite (insane_not_good A1) in K2. discriminate.
Qed.

(** Inbound alone, outbound alone. *)
Lemma inbound_only_sound E i oo ys i2 oo2 h : inbound_run E i oo ys i2 oo2 h -> h = Finished -> oo = None ->
  forall ai wi, ready i ai wi -> forallb clean_exchange ys = true ->
  eof i2 = true /\ conversation E ai 0 ys wi [].
Proof.
  induction 1 as [i oo G|i oo e i' ys i2 oo2 h G P S R IH|i oo req i' ys i2 oo2 h G P Q R IH
                 |i os req i' rs rb os' i'' ys i2 oo2 h G P Go Q Ei R IH|i oo i' G P|i os req i' os' G P Go Q];
    intros Hh Ho ai wi Ri C; try discriminate.
  - rewrite (ready_good Ri) in G. destruct wi; [|discriminate]. rewrite (rd_eof Ri). split; [reflexivity|constructor].
  - cbn in C. rewrite andb_true_r in C. apply andb_true_iff in C. destruct C as [C1 C2].
    destruct (request_sound (rd_pending Ri) P C1) as (w & Hw & M). rewrite (rd_pos Ri) in Hw.
    destruct (ready_moved' Ri M) as (ti & -> & Ri').
    destruct (IH Hh Ho _ _ Ri' C2) as [K1 K2]. split; [assumption|]. now apply cv_unanswered.
Qed.

Theorem requests_sound E wi :
  wi <> [] ->
  let r := parse_streams E (Some (new_stream wi)) None in
  how r = Finished -> forallb clean_exchange (yielded r) = true ->
  conversation E 0 0 (yielded r) wi [].
Proof.
  intros Wi r. pose proof (@parse_streams_run E (Some wi) None) as K. cbn [option_map] in K.
  fold r in K. clearbody r. intros Hh C.
  inversion K as [|? ys i2 K1| | | | | |]; subst; cbn [how yielded] in *; try discriminate.
  rewrite !forallb_app in C. apply andb_true_iff in C. destruct C as [C _].
  destruct (@inbound_only_sound _ _ _ _ _ _ _ K1 eq_refl eq_refl _ _ (ready_new Wi) C) as [A1 A2].
  unfold leftover_box. rewrite A1, app_nil_r. exact A2.
Qed.

Theorem orphan_responses_sound E wo :
  wo <> [] ->
  let r := parse_streams E None (Some (new_stream wo)) in
  how r = Finished -> forallb clean_exchange (yielded r) = true ->
  orphans_on_wire E 0 (yielded r) wo.
Proof.
  intros Wo r. pose proof (@parse_streams_run E None (Some wo)) as K. cbn [option_map] in K.
  fold r in K. clearbody r. intros Hh C.
  inversion K as [| | |? ys o2 K1| | | |]; subst; cbn [how yielded] in *; try discriminate.
  rewrite !forallb_app in C. apply andb_true_iff in C. destruct C as [C _].
  eapply outbound_sound; eauto. now apply ready_new.
Qed.

(** Conversations are clean. *)
Lemma responses_wire_clean E req a rs w f :
  responses_on_wire E req a rs w f -> forallb clean_response rs = true.
Proof.
  assert (forall a r w last, response_on_wire E req a r w last -> clean_response r = true) as K.
  { intros ? r ? ? (es & b & tr & i1 & i2 & w1 & w2 & _ & _ & _ & H). unfold clean_response. now rewrite H. }
  induction 1 as [a r w last H N|a r w H|a r w H N|a r w rs ws f H N H2 IH]; cbn [forallb].
  - now rewrite (K _ _ _ _ H).
  - destruct H as (es & ids & _ & _ & H). unfold clean_response. now rewrite H.
  - now rewrite (K _ _ _ _ H).
  - now rewrite (K _ _ _ _ H).
Qed.

Lemma unread_clean id a w : forallb clean_exchange (unread_box id a w) = true.
Proof. destruct w; reflexivity. Qed.

Lemma orphans_clean E a ys w : orphans_on_wire E a ys w -> forallb clean_exchange ys = true.
Proof.
  induction 1 as [|a rs w f ys tail H Fo H2 IH|a rs w tunnel H]; cbn [forallb clean_exchange]; auto.
  - now rewrite (responses_wire_clean H), IH.
  - now rewrite (responses_wire_clean H), unread_clean.
Qed.

Lemma conversation_clean E ai ao ys wi wo :
  conversation E ai ao ys wi wo -> forallb clean_exchange ys = true.
Proof.
  assert (forall a r w, request_on_wire E a r w -> clean_request r = true) as K.
  { intros ? r ? (es & b & tr & i1 & i2 & w1 & w2 & _ & _ & _ & H). unfold clean_request. now rewrite H. }
  induction 1 as [|? ? ys wo W H|ai ao req w ys ti H H2 IH|ai ao req wi rs wo f ys ti to H H1 Fo H2 IH
                 |ai ao req wi rs wo ti to H H1]; cbn [forallb clean_exchange]; auto.
  - now apply orphans_clean in H.
  - now rewrite (K _ _ _ H).
  - now rewrite (K _ _ _ H), (responses_wire_clean H1), IH.
  - now rewrite (K _ _ _ H), (responses_wire_clean H1), forallb_app, !unread_clean.
Qed.
