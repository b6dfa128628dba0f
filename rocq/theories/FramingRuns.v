(** A fuel-free account of [parse_streams]: what one run does, as inductive
    relations, and the proof that the fuelled functions follow it. *)
From Verif Require Import Base Stream StreamProofs Framing FramingBasics.
From Coq Require Import ZifyBool ZifyNat ZifyN.
Unset Strict Implicit.

(** The loop over the inbound stream. *)
Inductive inbound_run (E : env) :
  stream -> option stream -> list exchange -> stream -> option stream -> ending -> Prop :=
| ir_stop i o :
    good i = false -> inbound_run E i o [] i o Finished
| ir_box i o e i' ys i2 o2 h :
    good i = true -> parse_request E i = (Val (inr (BoxError 1006 e)), i') -> sane i' = false ->
    inbound_run E i' o ys i2 o2 h ->
    inbound_run E i o (ComplaintBox (BoxError 1006 e) :: ys) i2 o2 h
| ir_alone i o req i' ys i2 o2 h :
    good i = true -> parse_request E i = (Val (inl req), i') ->
    (forall os, o = Some os -> good os = false) ->
    inbound_run E i' o ys i2 o2 h ->
    inbound_run E i o (Exchange (Some req) [] :: ys) i2 o2 h
| ir_both i os req i' resps rb os' i'' ys i2 o2 h :
    good i = true -> parse_request E i = (Val (inl req), i') ->
    good os = true -> parse_responses E (Some req) os = (Val (resps, rb), os') ->
    i'' = (if ends_http req resps then set_sane false i' else i') ->
    inbound_run E i'' (Some os') ys i2 o2 h ->
    inbound_run E i (Some os) (Exchange (Some req) resps :: opt_box rb ++ ys) i2 o2 h
| ir_raise1 i o i' :
    good i = true -> parse_request E i = (ValueErr, i') ->
    inbound_run E i o [] i' o Raised_ValueError
| ir_raise2 i os req i' os' :
    good i = true -> parse_request E i = (Val (inl req), i') ->
    good os = true -> parse_responses E (Some req) os = (ValueErr, os') ->
    inbound_run E i (Some os) [] i' (Some os') Raised_ValueError.

(** The loop over an outbound stream alone. *)
Inductive outbound_run (E : env) : stream -> list exchange -> stream -> ending -> Prop :=
| or_stop o : good o = false -> outbound_run E o [] o Finished
| or_step o resps rb o' ys o2 h :
    good o = true -> parse_responses E None o = (Val (resps, rb), o') ->
    resps <> [] \/ rb <> None ->
    outbound_run E o' ys o2 h ->
    outbound_run E o ((if is_nil resps then [] else [Exchange None resps]) ++ opt_box rb ++ ys) o2 h
| or_raise o o' :
    good o = true -> parse_responses E None o = (ValueErr, o') ->
    outbound_run E o [] o' Raised_ValueError.

(** The request parser either fails, leaving the stream insane, or consumes. *)
Lemma parse_request_val E st o st' :
  parse_request E st = (o, st') ->
  o = ValueErr \/
  (exists e, o = Val (inr (BoxError 1006 e)) /\ sane st' = false) \/
  (exists r, o = Val (inl r) /\ (List.length (rest st') < List.length (rest st))%nat).
Proof.
  intro H. pose proof H as Q. apply parse_request_wb in Q. destruct Q as [_ Q].
  pose proof H as F. apply NF_parse_request in F.
  unfold parse_request in H. destruct (parse_request_heading st) as [o1 st1] eqn:H1.
  pose proof H1 as W; apply WB_parse_request_heading in W. destruct W as [W1 W2 W3].
  pose proof H1 as MI1; apply MI_parse_request_heading in MI1.
  pose proof H1 as N1; apply NF_parse_request_heading in N1.
  destruct o1 as [r|e|z| |]; try destruct MI1; try congruence.
  - apply shrinks_parse_request_heading in H1. apply bind_inv in H.
    destruct H as [(m & st2 & K1 & K2)|[(e & K1 & ->)|[(z & K1 & ->)|[(K1 & ->)|(K1 & ->)]]]];
      try destruct Q; try congruence.
    + injection K2 as <- <-. right. right. eexists. split; [reflexivity|].
      apply parse_request_body_wb in K1. destruct K1 as [K1 _]. apply adv_len in K1. lia.
    + now left.
  - injection H as <- <-. right. left. eexists. split; [reflexivity|]. eapply W2. reflexivity.
Qed.

Lemma parse_responses_nonempty E req st resps rb st' :
  good st = true -> parse_responses E req st = (Val (resps, rb), st') ->
  resps <> [] \/ rb <> None.
Proof.
  intros G. unfold parse_responses. cbn [responses_loop]. rewrite G.
  destruct (parse_response_heading st) as [o1 st1] eqn:H1.
  destruct o1 as [r|e|z| |]; intro H; try discriminate.
  - apply bind_inv in H.
    destruct H as [(m & st2 & K1 & K2)|[(e & K1 & K2)|[(z & K1 & K2)|[(K1 & K2)|(K1 & K2)]]]];
      try discriminate.
    cbv zeta in K2.
    assert (forall fuel acc st o st', acc <> [] ->
              responses_loop fuel E req acc st = (Val o, st') -> fst o <> []) as L.
    { clear. induction fuel as [|fuel IH]; intros acc st o st' NE H; cbn [responses_loop] in H;
        [discriminate|].
      destruct (good st); [|injection H as <- <-; assumption].
      destruct (parse_response_heading st) as [o1 st1] eqn:H1.
      destruct o1 as [r|e|z| |]; try discriminate.
      - apply bind_inv in H.
        destruct H as [(m & st2 & K1 & K2)|[(e & K1 & K2)|[(z & K1 & K2)|[(K1 & K2)|(K1 & K2)]]]];
          try discriminate.
        cbv zeta in K2. destruct (_ || _).
        + injection K2 as <- <-. cbn. intro A. apply app_eq_nil in A. now destruct A.
        + eapply IH; [|exact K2]. intro A. apply app_eq_nil in A. now destruct A.
      - injection H as <- <-. assumption. }
    left. destruct (_ || _).
    + injection K2 as <- <- <-. discriminate.
    + apply L in K2; [exact K2|discriminate].
  - injection H as <- <- <-. right. discriminate.
Qed.

(** Progress of the response parser on a good stream. *)
Lemma parse_responses_progress E req st o st' :
  good st = true -> parse_responses E req st = (o, st') ->
  o = ValueErr \/
  (exists resps rb, o = Val (resps, rb) /\
     (sane st' = false \/ (List.length (rest st') < List.length (rest st))%nat)).
Proof.
  intros G H. pose proof H as Q. apply parse_responses_wb in Q. destruct Q as [_ Q].
  pose proof H as F. apply NF_parse_responses in F.
  destruct o as [[resps rb]|e|z| |]; try destruct Q; try congruence; [|now left].
  right. exists resps, rb. split; [reflexivity|].
  unfold parse_responses in H. cbn [responses_loop] in H. rewrite G in H.
  destruct (parse_response_heading st) as [o1 st1] eqn:H1.
  pose proof H1 as W; apply WB_parse_response_heading in W. destruct W as [W1 W2 W3].
  destruct o1 as [r|e|z| |]; try discriminate.
  - right. apply shrinks_parse_response_heading in H1. apply bind_inv in H.
    destruct H as [(m & st2 & K1 & K2)|[(e & K1 & K2)|[(z & K1 & K2)|[(K1 & K2)|(K1 & K2)]]]];
      try discriminate.
    apply parse_response_body_wb in K1. destruct K1 as [K1 _]. apply adv_len in K1.
    cbv zeta in K2. destruct (_ || _).
    + injection K2 as <- <- <-. lia.
    + apply responses_loop_wb in K2. destruct K2 as [K2 _]. apply adv_len in K2. lia.
  - injection H as <- <- <-. left. eapply W2. reflexivity.
Qed.

Lemma good_sane st : good st = true -> sane st = true.
Proof. unfold good. intro H. apply andb_true_iff in H. tauto. Qed.

Lemma insane_not_good st : sane st = false -> good st = false.
Proof. unfold good. now intros ->. Qed.

Lemma requests_loop_run fuel E acc i o :
  ((if good i then S (List.length (rest i)) else O) < fuel)%nat ->
  exists ys i2 o2 h,
    requests_loop fuel E acc i o = mkResult (acc ++ ys) (Some i2) o2 h /\
    inbound_run E i o ys i2 o2 h.
Proof.
  revert acc i o; induction fuel as [|fuel IH]; intros acc i o L; [destruct (good i); lia|].
  cbn [requests_loop]. destruct (good i) eqn:G.
  2:{ exists [], i, o, Finished. rewrite app_nil_r. split; [reflexivity|]. now constructor. }
  destruct (parse_request E i) as [r i'] eqn:P.
  destruct (parse_request_val P) as [->|[(e & -> & S)|(req & -> & S)]].
  - exists [], i', o, Raised_ValueError. rewrite app_nil_r. split; [reflexivity|].
    now constructor.
  - destruct (IH (acc ++ [ComplaintBox (BoxError 1006 e)]) i' o) as (ys & i2 & o2 & h & H1 & H2).
    { rewrite (insane_not_good S). lia. }
    exists (ComplaintBox (BoxError 1006 e) :: ys), i2, o2, h. split.
    + rewrite H1, <- app_assoc. reflexivity.
    + econstructor; eauto.
  - assert (forall x, (if good x then Datatypes.S (List.length (rest i')) else O) < fuel)%nat as L'.
    { intro x. destruct (good x); lia. }
    destruct o as [os|].
    + destruct (good os) eqn:Go.
      * destruct (parse_responses E (Some req) os) as [ro os'] eqn:Q.
        destruct (parse_responses_progress Go Q) as [->|(resps & rb & -> & S')].
        -- exists [], i', (Some os'), Raised_ValueError. rewrite app_nil_r. split; [reflexivity|].
           eapply ir_raise2; eauto.
        -- cbv zeta. set (i'' := if ends_http req resps then _ else _).
           destruct (IH (acc ++ [Exchange (Some req) resps] ++ opt_box rb) i'' (Some os'))
             as (ys & i2 & o2 & h & H1 & H2).
           { replace (rest i'') with (rest i') by (unfold i''; destruct (ends_http _ _); reflexivity).
             apply L'. }
           exists (Exchange (Some req) resps :: opt_box rb ++ ys), i2, o2, h. split.
           ++ rewrite H1, <- app_assoc. simpl. reflexivity.
           ++ eapply ir_both; eauto.
      * destruct (IH (acc ++ [Exchange (Some req) []]) i' (Some os)) as (ys & i2 & o2 & h & H1 & H2);
          [apply L'|].
        exists (Exchange (Some req) [] :: ys), i2, o2, h. split.
        -- rewrite H1, <- app_assoc. reflexivity.
        -- eapply ir_alone; eauto. intros os' K. injection K as <-. assumption.
    + destruct (IH (acc ++ [Exchange (Some req) []]) i' None) as (ys & i2 & o2 & h & H1 & H2);
        [apply L'|].
      exists (Exchange (Some req) [] :: ys), i2, o2, h. split.
      * rewrite H1, <- app_assoc. reflexivity.
      * eapply ir_alone; eauto. discriminate.
Qed.

Lemma orphans_loop_run fuel E acc i o :
  ((if good o then S (List.length (rest o)) else O) < fuel)%nat ->
  exists ys o2 h,
    orphans_loop fuel E acc i o = mkResult (acc ++ ys) i (Some o2) h /\
    outbound_run E o ys o2 h.
Proof.
  revert acc o; induction fuel as [|fuel IH]; intros acc o L; [destruct (good o); lia|].
  cbn [orphans_loop]. destruct (good o) eqn:G.
  2:{ exists [], o, Finished. rewrite app_nil_r. split; [reflexivity|]. now constructor. }
  destruct (parse_responses E None o) as [ro o'] eqn:Q.
  destruct (parse_responses_progress G Q) as [->|(resps & rb & -> & S')].
  - exists [], o', Raised_ValueError. rewrite app_nil_r. split; [reflexivity|]. now constructor.
  - destruct (IH (acc ++ (if is_nil resps then [] else [Exchange None resps]) ++ opt_box rb) o')
      as (ys & o2 & h & H1 & H2).
    { destruct S' as [S'|S']; [rewrite (insane_not_good S'); lia|destruct (good o'); lia]. }
    eexists _, o2, h. split.
    + rewrite H1, <- !app_assoc. reflexivity.
    + eapply or_step; eauto. eapply parse_responses_nonempty; eauto.
Qed.

(** A whole run. *)
Definition leftover_box (id : N) (st : stream) : list exchange :=
  if eof st then [] else [ComplaintBox (BoxOffset id (pos st))].

Inductive whole_run (E : env) : option str -> option str -> result -> Prop :=
| wr_none : whole_run E None None (mkResult [] None None Finished)
| wr_in di ys i2 :
    inbound_run E (new_stream di) None ys i2 None Finished ->
    whole_run E (Some di) None (mkResult (ys ++ leftover_box 1007 i2) (Some i2) None Finished)
| wr_in_raise di do ys i2 o2 :
    inbound_run E (new_stream di) (option_map new_stream do) ys i2 o2 Raised_ValueError ->
    whole_run E (Some di) do (mkResult ys (Some i2) o2 Raised_ValueError)
| wr_out do ys o2 :
    outbound_run E (new_stream do) ys o2 Finished ->
    whole_run E None (Some do) (mkResult (ys ++ leftover_box 1010 o2) None (Some o2) Finished)
| wr_out_raise do ys o2 :
    outbound_run E (new_stream do) ys o2 Raised_ValueError ->
    whole_run E None (Some do) (mkResult ys None (Some o2) Raised_ValueError)
| wr_both di do ys i2 o1 :
    inbound_run E (new_stream di) (Some (new_stream do)) ys i2 (Some o1) Finished ->
    good o1 = false ->
    whole_run E (Some di) (Some do)
      (mkResult (ys ++ leftover_box 1007 i2 ++ leftover_box 1010 o1)
                (Some i2) (Some o1) Finished)
| wr_both_orphans di do ys i2 o1 ys2 o2 :
    inbound_run E (new_stream di) (Some (new_stream do)) ys i2 (Some o1) Finished ->
    good o1 = true ->
    outbound_run E o1 ys2 o2 Finished ->
    whole_run E (Some di) (Some do)
      (mkResult (ys ++ leftover_box 1007 i2 ++ [ComplaintBox (BoxPlain 1008)] ++
                 ys2 ++ leftover_box 1010 o2)
                (Some i2) (Some o2) Finished)
| wr_both_orphans_raise di do ys i2 o1 ys2 o2 :
    inbound_run E (new_stream di) (Some (new_stream do)) ys i2 (Some o1) Finished ->
    good o1 = true ->
    outbound_run E o1 ys2 o2 Raised_ValueError ->
    whole_run E (Some di) (Some do)
      (mkResult (ys ++ leftover_box 1007 i2 ++ [ComplaintBox (BoxPlain 1008)] ++ ys2)
                (Some i2) (Some o2) Raised_ValueError).

Lemma inbound_run_how E i o ys i2 o2 h :
  inbound_run E i o ys i2 o2 h -> h = Finished \/ h = Raised_ValueError.
Proof. induction 1; auto. Qed.

Lemma outbound_run_how E o ys o2 h :
  outbound_run E o ys o2 h -> h = Finished \/ h = Raised_ValueError.
Proof. induction 1; auto. Qed.

Lemma inbound_run_out E i o ys i2 o2 h :
  inbound_run E i o ys i2 o2 h -> (o = None -> o2 = None) /\ (o <> None -> o2 <> None).
Proof. induction 1; split; try tauto; try congruence; try (intuition congruence). Qed.

Lemma parse_streams_run E di do :
  whole_run E di do (parse_streams E (option_map new_stream di) (option_map new_stream do)).
Proof.
  unfold parse_streams. destruct di as [di|]; cbn [option_map].
  - destruct (@requests_loop_run (loop_fuel (new_stream di)) E [] (new_stream di) (option_map new_stream do))
      as (ys & i2 & o2 & h & H1 & H2).
    { unfold loop_fuel. simpl. lia. }
    rewrite H1. cbn [yielded how inb outb app].
    pose proof (inbound_run_how H2) as HH. pose proof (inbound_run_out H2) as [HO1 HO2].
    destruct HH as [->| ->]; [|now constructor].
    destruct do as [do|]; cbn [option_map] in *.
    + destruct o2 as [o1|]; [|exfalso; apply HO2; [discriminate|reflexivity]].
      destruct (good o1) eqn:G.
      * destruct (@orphans_loop_run (loop_fuel o1) E
                   ((ys ++ leftover_box 1007 i2) ++ [ComplaintBox (BoxPlain 1008)]) (Some i2) o1)
          as (ys2 & o2 & h & H3 & H4).
        { unfold loop_fuel. rewrite G. lia. }
        unfold leftover_box in H3. rewrite H3. cbn [how outb yielded inb].
        pose proof (outbound_run_how H4) as HH. destruct HH as [->| ->].
        -- rewrite <- !app_assoc. apply (wr_both_orphans H2 G H4).
        -- rewrite <- !app_assoc. apply (wr_both_orphans_raise H2 G H4).
      * cbn [how outb yielded inb]. rewrite <- app_assoc. apply (wr_both H2 G).
    + rewrite (HO1 eq_refl) in *. apply wr_in. assumption.
  - destruct do as [do|]; cbn [option_map yielded how inb outb app]; [|constructor].
    assert (good (new_stream do) = true) as G by reflexivity. rewrite G.
    destruct (@orphans_loop_run (loop_fuel (new_stream do)) E [] None (new_stream do))
      as (ys2 & o2 & h & H3 & H4).
    { unfold loop_fuel. rewrite G. lia. }
    rewrite H3. cbn [how outb yielded inb app].
    pose proof (outbound_run_how H4) as HH. destruct HH as [->| ->].
    + apply (wr_out H4).
    + apply (wr_out_raise H4).
Qed.
