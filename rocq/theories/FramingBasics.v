(** Basic facts about the framing model that hold of every run: the stream
    only moves forward, the end-of-file flag stays right, errors make the
    stream insane, and no loop runs out of fuel. *)
From Verif Require Import Base Stream StreamProofs Framing.
From Coq Require Import ZifyBool ZifyNat ZifyN.

(** What every computation does to the stream. *)
Record adv (st st' : stream) : Prop := mkAdv {
  adv_consumes : exists c, consumes c st st';
  adv_okst : okst st -> okst st';
  adv_sane : sane st' = true -> sane st = true;
  adv_eof : eof st = true -> eof st' = true;
  adv_exact : exact st -> exact st'
}.

Lemma adv_refl st : adv st st.
Proof. constructor; auto. exists []. apply consumes_nil. Qed.

Lemma adv_trans st1 st2 st3 : adv st1 st2 -> adv st2 st3 -> adv st1 st3.
Proof.
  intros [[c Hc] H1 H2 H3 HX] [[d Hd] H4 H5 H6 HY]. constructor; auto.
  exists (c ++ d). eapply consumes_app; eauto.
Qed.

Lemma adv_len st st' : adv st st' -> (List.length (rest st') <= List.length (rest st))%nat.
Proof. intros [[c [H _]] _ _ _ _]. rewrite H, app_length. lia. Qed.

Lemma adv_set_sane st : adv st (set_sane false st).
Proof.
  constructor; simpl; auto; try discriminate.
  exists []. split; simpl; auto. lia.
Qed.

Lemma adv_add_pending n st : adv st (add_pending n st).
Proof.
  constructor; simpl; auto. exists []. split; simpl; auto. lia.
Qed.

Lemma adv_clear_pending st : adv st (clear_pending st).
Proof.
  constructor; simpl; auto. exists []. split; simpl; auto. lia.
Qed.

Lemma okst_app_nil st c st' :
  consumes c st st' -> eof st' = (eof st || is_nil (rest st')) -> okst st -> exact st'.
Proof.
  intros [H1 _] H2 H3. unfold exact. rewrite H2. split; intro E.
  - apply orb_true_iff in E. destruct E as [E|E].
    + apply H3 in E. rewrite E in H1. symmetry in H1. apply app_eq_nil in H1. tauto.
    + destruct (rest st'); [reflexivity|discriminate].
  - rewrite E. apply orb_true_r.
Qed.

(** [bind] *)
Lemma bind_inv {A B} (m : M A) (f : A -> M B) st o st' :
  bind m f st = (o, st') ->
  (exists a st1, m st = (Val a, st1) /\ f a st1 = (o, st')) \/
  (exists e, m st = (ParseErr e, st') /\ o = ParseErr e) \/
  (exists z, m st = (TooLong z, st') /\ o = TooLong z) \/
  (m st = (ValueErr, st') /\ o = ValueErr) \/
  (m st = (Fuel, st') /\ o = Fuel).
Proof.
  unfold bind. destruct (m st) as [[a|e|z| |] st1]; intro H.
  - left. eauto.
  - injection H as <- <-. right; left; eauto.
  - injection H as <- <-. right; right; left; eauto.
  - injection H as <- <-. right; right; right; left; auto.
  - injection H as <- <-. right; right; right; right; auto.
Qed.

Lemma bind_val {A B} (m : M A) (f : A -> M B) st a st1 :
  m st = (Val a, st1) -> bind m f st = f a st1.
Proof. unfold bind. now intros ->. Qed.
Arguments bind_val {A B m} f {st a st1} H.

Lemma bind_tell {B} (f : N -> M B) st : bind tell f st = f (pos st) st.
Proof. reflexivity. Qed.

(** A well-behaved computation: moves forward, and both kinds of caught
    exceptions leave the stream insane. *)
Record wb {A} (st : stream) (o : outcome A) (st' : stream) : Prop := mkWb {
  wb_adv : adv st st';
  wb_err : forall e, o = ParseErr e -> sane st' = false;
  wb_long : forall z, o = TooLong z -> sane st' = false
}.

Definition WB {A} (m : M A) : Prop := forall st o st', m st = (o, st') -> wb st o st'.

Lemma WB_ret {A} (a : A) : WB (ret a).
Proof. intros st o st' H. injection H as <- <-. constructor; try discriminate. apply adv_refl. Qed.

Lemma WB_bind {A B} (m : M A) (f : A -> M B) :
  WB m -> (forall a, WB (f a)) -> WB (bind m f).
Proof.
  intros Hm Hf st o st' H. apply bind_inv in H.
  destruct H as [(a & st1 & H1 & H2)|[(e & H1 & ->)|[(z & H1 & ->)|[(H1 & ->)|(H1 & ->)]]]].
  - apply Hm in H1. apply Hf in H2. destruct H1, H2. constructor; auto.
    eapply adv_trans; eauto.
  - apply Hm in H1. destruct H1 as [Ha He Hl]. constructor; auto; try discriminate.
    intros e' _. exact (He e eq_refl).
  - apply Hm in H1. destruct H1 as [Ha He Hl]. constructor; auto; try discriminate.
    intros e' _. exact (Hl z eq_refl).
  - apply Hm in H1. destruct H1. constructor; auto; discriminate.
  - apply Hm in H1. destruct H1. constructor; auto; discriminate.
Qed.

Lemma WB_raise {A} p e : WB (A := A) (raise_error p e).
Proof.
  intros st o st' H. injection H as <- <-. constructor; try discriminate; auto.
  apply adv_set_sane.
Qed.

Lemma WB_tell : WB tell.
Proof. intros st o st' H. injection H as <- <-. constructor; try discriminate. apply adv_refl. Qed.

Lemma WB_peek : WB peek.
Proof. intros st o st' H. injection H as <- <-. constructor; try discriminate. apply adv_refl. Qed.

Lemma WB_complain n : WB (complain n).
Proof. intros st o st' H. injection H as <- <-. constructor; try discriminate. apply adv_add_pending. Qed.

Lemma WB_fuel {A} : WB (A := A) (fun st => (Fuel, st)).
Proof. intros st o st' H. injection H as <- <-. constructor; try discriminate. apply adv_refl. Qed.

Lemma WB_set_insane {A} (a : A) : WB (set_insane a).
Proof. intros st o st' H. injection H as <- <-. constructor; try discriminate. apply adv_set_sane. Qed.

Lemma readline_facts st o st' :
  readline st = (o, st') -> readline_rel st o st'.
Proof. intro H. pose proof (readline_spec st) as R. rewrite H in R. exact R. Qed.

Lemma readline_rel_adv st o st' : readline_rel st o st' -> adv st st'.
Proof.
  intro H. destruct H as [line term st' Hn Ht Hl Hc He Hs Hp|c e st' Hn Hc He Hs Hp Hpos Hnil Hx].
  - constructor; eauto.
    + intro K. apply exact_okst. eapply okst_app_nil; eauto.
    + intro K. rewrite He, K. reflexivity.
    + intro K. eapply okst_app_nil; eauto using exact_okst.
  - constructor; eauto.
    + intro K. apply exact_okst. eapply okst_app_nil; eauto.
    + intro K; congruence.
    + intro K. rewrite He, K. reflexivity.
    + intro K. eapply okst_app_nil; eauto using exact_okst.
Qed.

Lemma readline_rel_exact st o st' : readline_rel st o st' -> okst st -> exact st'.
Proof. intro H. destruct H; intros; eapply okst_app_nil; eauto. Qed.

Lemma WB_readline : WB readline.
Proof.
  intros st o st' H. apply readline_facts in H.
  pose proof (readline_rel_adv H) as A.
  destruct H; constructor; auto; try discriminate.
Qed.

Lemma WB_readlineend : WB readlineend.
Proof.
  apply WB_bind; [apply WB_tell|]. intro p. apply WB_bind; [apply WB_readline|].
  intro l. destruct (is_nil l); [apply WB_ret|apply WB_raise].
Qed.

(** [read] *)
Lemma read_cases n st o st' :
  read n st = (o, st') ->
  ((n < -1)%Z /\ o = ValueErr /\ st' = st) \/
  (exists r, (-1 <= n)%Z /\ consumes r st st' /\
     eof st' = (eof st || is_nil (rest st')) /\ pending st' = pending st /\
     ((n = -1)%Z -> rest st' = []) /\
     ((0 <= n)%Z -> lenN r <= Z.to_N n) /\
     ((0 <= n)%Z -> lenN r < Z.to_N n -> rest st' = []) /\
     ((o = Val r /\ sane st' = sane st /\ (0 < n -> lenN r = Z.to_N n)%Z) \/
      (exists e, o = ParseErr e /\ sane st' = false /\ pe_pos e = pos st /\
                 pe_expected e = ExpBytes n /\ (0 < n)%Z /\ lenN r < Z.to_N n))).
Proof.
  unfold read. destruct (n <? -1)%Z eqn:E1.
  { intro H. injection H as <- <-. left. repeat split; auto. lia. }
  intro H. right.
  destruct (n =? -1)%Z eqn:E2.
  - assert (n = -1)%Z as -> by lia. cbn in H.
    assert ((Z.of_N (lenN (rest st)) <? -1)%Z = false) as E3 by lia.
    rewrite E3 in H. cbn in H. injection H as <- <-.
    exists (rest st). simpl. repeat split; auto; try lia; simpl.
    + now rewrite app_nil_r.
    + left. repeat split; auto. lia.
  - assert (0 <= n)%Z as E3 by lia.
    destruct (takeN (Z.to_N n) (rest st)) as [r rest'] eqn:T.
    pose proof (takeN_app (Z.to_N n) (rest st)) as TA. pose proof (takeN_len (Z.to_N n) (rest st)) as TL.
    rewrite T in TA, TL. cbn [fst snd] in TA, TL.
    assert (lenN (rest st) = lenN r + lenN rest') as TL2 by (rewrite <- TA, lenN_app; lia).
    assert (forall K : str, lenN K = 0 -> K = []) as Z0 by (intros [|? K]; simpl; intros; [reflexivity|lia]).
    exists r.
    destruct ((Z.of_N (lenN r) <? n)%Z && (0 <? n)%Z) eqn:E4; injection H as <- <-; simpl;
      repeat split; auto; try lia; simpl; auto; try (intros; apply Z0; lia).
    + right. eexists. repeat split; simpl; auto; lia.
    + left. repeat split; auto. lia.
Qed.

Lemma WB_read n : WB (read n).
Proof.
  intros st o st' H. apply read_cases in H.
  destruct H as [(H1 & -> & ->)|(r & H1 & H2 & H3 & H4 & H5 & H5' & H5'' & H6)].
  - constructor; try discriminate. apply adv_refl.
  - assert (sane st' = true -> sane st = true) as S.
    { destruct H6 as [(_ & K & _)|(e & _ & K & _)]; congruence. }
    constructor.
    + constructor; eauto.
      * intro K. apply exact_okst. eapply okst_app_nil; eauto.
      * intro K. rewrite H3, K. reflexivity.
      * intro K. eapply okst_app_nil; eauto using exact_okst.
    + intros e ->. destruct H6 as [(K & _)|(e' & K & K' & _)]; [discriminate|assumption].
    + intros e ->. destruct H6 as [(K & _)|(e' & K & K' & _)]; discriminate.
Qed.

Lemma WB_fold_lines fuel vs : WB (fold_lines fuel vs).
Proof.
  revert vs; induction fuel as [|fuel IH]; intro vs; [apply WB_fuel|].
  cbn [fold_lines]. apply WB_bind; [apply WB_peek|]. intros [c|]; [|apply WB_ret].
  destruct (is_blank c); [|apply WB_ret].
  apply WB_bind; [apply WB_complain|]. intro. apply WB_bind; [apply WB_readline|]. intro. apply IH.
Qed.

Lemma WB_header_fields fuel acc : WB (header_fields fuel acc).
Proof.
  revert acc; induction fuel as [|fuel IH]; intro acc; [apply WB_fuel|].
  cbn [header_fields]. apply WB_bind; [apply WB_peek|]. intros [c|]; [|apply WB_ret].
  destruct ((c =? 13) || (c =? 10)); [apply WB_ret|].
  apply WB_bind; [apply WB_tell|]. intro. apply WB_bind; [apply WB_readline|]. intro line.
  destruct (partition_at 58 line) as [[name v]|]; [|apply WB_raise].
  apply WB_bind; [apply WB_fold_lines|]. intro. apply IH.
Qed.

Lemma WB_parse_header_fields : WB parse_header_fields.
Proof. intros st o st' H. unfold parse_header_fields in H. eapply WB_header_fields; eauto. Qed.

Lemma WB_dump_complaints p m : WB (dump_complaints p m).
Proof.
  intros st o st' H. injection H as <- <-. constructor; try discriminate. apply adv_clear_pending.
Qed.

Lemma WB_parse_request_heading : WB parse_request_heading.
Proof.
  apply WB_bind; [apply WB_tell|]. intro b. apply WB_bind; [apply WB_readline|]. intro line.
  destruct (split_on 32 line) as [|x [|y [|z [|w l]]]]; try apply WB_raise.
  destruct (is_http_version z); [|apply WB_raise].
  apply WB_bind; [apply WB_parse_header_fields|]. intro.
  apply WB_bind; [apply WB_readlineend|]. intro.
  apply WB_bind; [apply WB_dump_complaints|]. intro. apply WB_ret.
Qed.

Lemma WB_parse_response_heading : WB parse_response_heading.
Proof.
  apply WB_bind; [apply WB_tell|]. intro b. apply WB_bind; [apply WB_readline|]. intro line.
  destruct (split_on_2 32 line) as [|x [|y [|z [|w l]]]]; try apply WB_raise.
  destruct (is_http_version x && is_status_code y); [|apply WB_raise].
  apply WB_bind; [apply WB_parse_header_fields|]. intro.
  apply WB_bind; [apply WB_readlineend|]. intro.
  apply WB_bind; [apply WB_dump_complaints|]. intro. apply WB_ret.
Qed.

Lemma WB_parse_chunk n : WB (parse_chunk n).
Proof.
  apply WB_bind; [apply WB_tell|]. intro b. apply WB_bind; [apply WB_readline|]. intro line.
  cbv zeta. destruct (py_int16 _) as [size|]; [|apply WB_raise].
  destruct (size =? 0)%Z; [apply WB_ret|].
  destruct (_ <? _)%Z.
  - intros st o st' H. injection H as <- <-. constructor; try discriminate; auto. apply adv_set_sane.
  - apply WB_bind; [apply WB_read|]. intro. apply WB_bind; [apply WB_readlineend|]. intro. apply WB_ret.
Qed.

Lemma WB_chunks_loop fuel acc : WB (chunks_loop fuel acc).
Proof.
  revert acc; induction fuel as [|fuel IH]; intro acc; [apply WB_fuel|].
  cbn [chunks_loop]. apply WB_bind; [apply WB_parse_chunk|]. intros [d|]; [apply IH|apply WB_ret].
Qed.

Lemma WB_chunked_framing : WB chunked_framing.
Proof.
  apply WB_bind. { intros st o st' H. unfold parse_chunks in H. eapply WB_chunks_loop; eauto. }
  intro. apply WB_bind; [apply WB_parse_header_fields|]. intro.
  apply WB_bind; [apply WB_readlineend|]. intro. apply WB_ret.
Qed.

(** Computations that never raise one of the caught exceptions. *)
Definition quiet {A} (o : outcome A) : Prop :=
  match o with ParseErr _ | TooLong _ => False | _ => True end.

Lemma parse_chunked_wb m st o st' : parse_chunked m st = (o, st') -> adv st st' /\ quiet o.
Proof.
  unfold parse_chunked. destruct (chunked_framing st) as [[[data t]|e|z| |] st1] eqn:E;
    intro H; pose proof (WB_chunked_framing _ E) as W; destruct W as [W1 W2 W3].
  - cbn in H. injection H as <- <-. split; [|exact I].
    eapply adv_trans; [exact W1|apply adv_clear_pending].
  - injection H as <- <-. split; [assumption|exact I].
  - injection H as <- <-. split; [assumption|exact I].
  - injection H as <- <-. split; [assumption|exact I].
  - injection H as <- <-. split; [assumption|exact I].
Qed.

Lemma process_content_length_wb n m st o st' :
  process_content_length n m st = (o, st') -> adv st st' /\ quiet o.
Proof.
  unfold process_content_length. destruct n as [n|].
  - destruct (_ <? _)%Z.
    + intro H. injection H as <- <-. split; [apply adv_set_sane|exact I].
    + destruct (read (Z.of_N n) st) as [o1 st1] eqn:E. pose proof E as TMP; apply WB_read in TMP; destruct TMP as [W1 W2 W3].
      pose proof E as RC; apply read_cases in RC.
      destruct o1; intro H; injection H as <- <-; split; auto; try exact I.
      destruct RC as [(? & ? & ?)|(r & ? & ? & ? & ? & ? & ? & ? & [(? & ? & ?)|(e & ? & ? & ? & ?)])];
        discriminate.
  - intro H. injection H as <- <-. split; [apply adv_set_sane|exact I].
Qed.

Lemma quiet_bind_ret {A B} (m : M A) (f : A -> B) st o st' :
  (forall o1 st1, m st = (o1, st1) -> adv st st1 /\ quiet o1) ->
  bind m (fun a => ret (f a)) st = (o, st') -> adv st st' /\ quiet o.
Proof.
  intros H1 H2. apply bind_inv in H2.
  destruct H2 as [(a & st1 & K1 & K2)|[(e & K1 & ->)|[(z & K1 & ->)|[(K1 & ->)|(K1 & ->)]]]];
    apply H1 in K1; destruct K1 as [K1 K3].
  - injection K2 as <- <-. auto.
  - destruct K3.
  - destruct K3.
  - auto.
  - auto.
Qed.

Lemma parse_request_body_wb E m st o st' :
  parse_request_body E m st = (o, st') -> adv st st' /\ quiet o.
Proof.
  unfold parse_request_body. destruct (rev (te_value E (entries m))) as [|c rcs].
  - destruct (cl_value (entries m)) as [| |n].
    + intro H. injection H as <- <-. split; [apply adv_refl|exact I].
    + apply process_content_length_wb.
    + destruct (n =? 0).
      * intro H. injection H as <- <-. split; [apply adv_refl|exact I].
      * apply process_content_length_wb.
  - destruct (coding_is "chunked" c).
    + apply quiet_bind_ret. intros. eapply parse_chunked_wb; eauto.
    + intro H. injection H as <- <-. split; [apply adv_set_sane|exact I].
Qed.

Lemma read_all st : read (-1) st = (Val (rest st), after_read st (lenN (rest st)) []).
Proof.
  unfold read. cbn.
  assert ((Z.of_N (lenN (rest st)) <? -1)%Z = false) as -> by lia. reflexivity.
Qed.

Lemma parse_response_body_wb E req status m st o st' :
  parse_response_body E req status m st = (o, st') -> adv st st' /\ quiet o.
Proof.
  unfold parse_response_body.
  destruct (status =? 101).
  { intro H. injection H as <- <-. split; [apply adv_set_sane|exact I]. }
  destruct (method_is "CONNECT" req && successful status).
  { intro H. injection H as <- <-. split; [apply adv_set_sane|exact I]. }
  destruct (_ || _).
  { intro H. injection H as <- <-. split; [apply adv_refl|exact I]. }
  destruct (rev (te_value E (entries m))) as [|c rcs].
  - destruct (cl_value (entries m)) as [| |n].
    + apply quiet_bind_ret. intros o1 st1 H. pose proof H as TMP; apply WB_read in TMP; destruct TMP as [W _ _].
      rewrite read_all in H. injection H as <- <-. split; [assumption|exact I].
    + apply process_content_length_wb.
    + apply process_content_length_wb.
  - destruct (coding_is "chunked" c).
    + apply quiet_bind_ret. intros. eapply parse_chunked_wb; eauto.
    + apply quiet_bind_ret. intros o1 st1 H. pose proof H as TMP; apply WB_read in TMP; destruct TMP as [W _ _].
      rewrite read_all in H. injection H as <- <-. split; [assumption|exact I].
Qed.

(** Computations that can only raise [ParseError]. *)
Definition mild {A} (o : outcome A) : Prop :=
  match o with TooLong _ | ValueErr => False | _ => True end.

Definition MI {A} (m : M A) : Prop := forall st o st', m st = (o, st') -> mild o.

Lemma MI_ret {A} (a : A) : MI (ret a).
Proof. intros st o st' H. injection H as <- <-. exact I. Qed.

Lemma MI_raise {A} p e : MI (A := A) (raise_error p e).
Proof. intros st o st' H. injection H as <- <-. exact I. Qed.

Lemma MI_bind {A B} (m : M A) (f : A -> M B) :
  MI m -> (forall a, MI (f a)) -> MI (bind m f).
Proof.
  intros Hm Hf st o st' H. apply bind_inv in H.
  destruct H as [(a & st1 & H1 & H2)|[(e & H1 & ->)|[(z & H1 & ->)|[(H1 & ->)|(H1 & ->)]]]].
  - eapply Hf; eauto.
  - exact I.
  - apply Hm in H1. exact H1.
  - apply Hm in H1. exact H1.
  - exact I.
Qed.

Lemma MI_readline : MI readline.
Proof. intros st o st' H. apply readline_facts in H. destruct H; exact I. Qed.

Lemma MI_tell : MI tell.
Proof. intros st o st' H. injection H as <- <-. exact I. Qed.

Lemma MI_peek : MI peek.
Proof. intros st o st' H. injection H as <- <-. exact I. Qed.

Lemma MI_readlineend : MI readlineend.
Proof.
  apply MI_bind; [apply MI_tell|]. intro p. apply MI_bind; [apply MI_readline|].
  intro l. destruct (is_nil l); [apply MI_ret|apply MI_raise].
Qed.

Lemma MI_fold_lines fuel vs : MI (fold_lines fuel vs).
Proof.
  revert vs; induction fuel as [|fuel IH]; intro vs.
  { intros st o st' H. injection H as <- <-. exact I. }
  cbn [fold_lines]. apply MI_bind; [apply MI_peek|]. intros [c|]; [|apply MI_ret].
  destruct (is_blank c); [|apply MI_ret].
  apply MI_bind. { intros st o st' H. injection H as <- <-. exact I. }
  intro. apply MI_bind; [apply MI_readline|]. intro. apply IH.
Qed.

Lemma MI_header_fields fuel acc : MI (header_fields fuel acc).
Proof.
  revert acc; induction fuel as [|fuel IH]; intro acc.
  { intros st o st' H. injection H as <- <-. exact I. }
  cbn [header_fields]. apply MI_bind; [apply MI_peek|]. intros [c|]; [|apply MI_ret].
  destruct ((c =? 13) || (c =? 10)); [apply MI_ret|].
  apply MI_bind; [apply MI_tell|]. intro. apply MI_bind; [apply MI_readline|]. intro line.
  destruct (partition_at 58 line) as [[name v]|]; [|apply MI_raise].
  apply MI_bind; [apply MI_fold_lines|]. intro. apply IH.
Qed.

Lemma MI_parse_header_fields : MI parse_header_fields.
Proof. intros st o st' H. unfold parse_header_fields in H. eapply MI_header_fields; eauto. Qed.

Lemma MI_dump_complaints p m : MI (dump_complaints p m).
Proof. intros st o st' H. injection H as <- <-. exact I. Qed.

Lemma MI_parse_request_heading : MI parse_request_heading.
Proof.
  apply MI_bind; [apply MI_tell|]. intro b. apply MI_bind; [apply MI_readline|]. intro line.
  destruct (split_on 32 line) as [|x [|y [|z [|w l]]]]; try apply MI_raise.
  destruct (is_http_version z); [|apply MI_raise].
  apply MI_bind; [apply MI_parse_header_fields|]. intro.
  apply MI_bind; [apply MI_readlineend|]. intro.
  apply MI_bind; [apply MI_dump_complaints|]. intro. apply MI_ret.
Qed.

Lemma MI_parse_response_heading : MI parse_response_heading.
Proof.
  apply MI_bind; [apply MI_tell|]. intro b. apply MI_bind; [apply MI_readline|]. intro line.
  destruct (split_on_2 32 line) as [|x [|y [|z [|w l]]]]; try apply MI_raise.
  destruct (is_http_version x && is_status_code y); [|apply MI_raise].
  apply MI_bind; [apply MI_parse_header_fields|]. intro.
  apply MI_bind; [apply MI_readlineend|]. intro.
  apply MI_bind; [apply MI_dump_complaints|]. intro. apply MI_ret.
Qed.

Lemma parse_request_wb E st o st' :
  parse_request E st = (o, st') -> adv st st' /\ quiet o.
Proof.
  unfold parse_request. destruct (parse_request_heading st) as [o1 st1] eqn:H1.
  pose proof H1 as TMP; apply WB_parse_request_heading in TMP; destruct TMP as [W1 W2 W3].
  pose proof H1 as MI1; apply MI_parse_request_heading in MI1.
  destruct o1 as [r|e|z| |]; intro H; try destruct MI1.
  - assert (adv st1 st' /\ quiet o) as [K1 K2].
    { eapply quiet_bind_ret; [|exact H]. intros. eapply parse_request_body_wb; eauto. }
    split; [eapply adv_trans; eauto|assumption].
  - injection H as <- <-. split; [assumption|exact I].
  - injection H as <- <-. split; [assumption|exact I].
Qed.

Lemma responses_loop_wb fuel E req acc st o st' :
  responses_loop fuel E req acc st = (o, st') -> adv st st' /\ quiet o.
Proof.
  revert acc st; induction fuel as [|fuel IH]; intros acc st; cbn [responses_loop].
  { intro H. injection H as <- <-. split; [apply adv_refl|exact I]. }
  destruct (good st).
  2:{ intro H. injection H as <- <-. split; [apply adv_refl|exact I]. }
  destruct (parse_response_heading st) as [o1 st1] eqn:H1.
  pose proof H1 as TMP; apply WB_parse_response_heading in TMP; destruct TMP as [W1 W2 W3].
  pose proof H1 as MI1; apply MI_parse_response_heading in MI1.
  destruct o1 as [r|e|z| |]; intro H; try destruct MI1.
  - apply bind_inv in H.
    destruct H as [(m & st2 & K1 & K2)|[(e & K1 & ->)|[(z & K1 & ->)|[(K1 & ->)|(K1 & ->)]]]];
      apply parse_response_body_wb in K1; destruct K1 as [K1 K3]; try destruct K3.
    + assert (adv st2 st' /\ quiet o) as [K4 K5].
      { cbv zeta in K2. destruct (_ || _).
        - injection K2 as <- <-. split; [apply adv_refl|exact I].
        - eapply IH; eauto. }
      split; [|assumption]. eapply adv_trans; [|eassumption]. eapply adv_trans; eauto.
    + split; [eapply adv_trans; eauto|exact I].
    + split; [eapply adv_trans; eauto|exact I].
  - injection H as <- <-. split; [assumption|exact I].
  - injection H as <- <-. split; [assumption|exact I].
Qed.

Lemma parse_responses_wb E req st o st' :
  parse_responses E req st = (o, st') -> adv st st' /\ quiet o.
Proof. apply responses_loop_wb. Qed.

(** * Fuel *)

Lemma readline_shrinks st l st' :
  readline st = (Val l, st') -> (List.length (rest st') < List.length (rest st))%nat.
Proof.
  intro H. apply readline_facts in H. inversion H as [line term st1 Hn Ht Hl Hc He Hs Hp|]; subst.
  destruct Hc as [Hc _]. rewrite Hc, !app_length.
  destruct Ht as [->|[-> _]]; simpl; lia.
Qed.

Lemma fold_lines_fuel fuel vs st o st' :
  (List.length (rest st) < fuel)%nat -> fold_lines fuel vs st = (o, st') -> o <> Fuel.
Proof.
  revert vs st; induction fuel as [|fuel IH]; intros vs st L; [lia|].
  cbn [fold_lines]. unfold peek at 1, bind at 1. cbn.
  destruct (rest st) as [|c r] eqn:R.
  { intro H. injection H as <- <-. discriminate. }
  destruct (is_blank c); [|intro H; injection H as <- <-; discriminate].
  intro H. apply bind_inv in H.
  destruct H as [(m & st2 & K1 & K2)|[(e & K1 & ->)|[(z & K1 & ->)|[(K1 & ->)|(K1 & ->)]]]];
    try discriminate K1.
  injection K1 as <- <-.
  apply bind_inv in K2.
  destruct K2 as [(l & st3 & K1 & K2)|[(e & K1 & ->)|[(z & K1 & ->)|[(K1 & ->)|(K1 & ->)]]]];
    try discriminate.
  - eapply IH; [|exact K2]. apply readline_shrinks in K1. simpl in K1. rewrite R in K1.
    simpl in *. lia.
  - pose proof K1 as F; apply readline_facts in F. inversion F.
Qed.

Lemma header_fields_fuel fuel acc st o st' :
  (List.length (rest st) < fuel)%nat -> header_fields fuel acc st = (o, st') -> o <> Fuel.
Proof.
  revert acc st; induction fuel as [|fuel IH]; intros acc st L; [lia|].
  cbn [header_fields]. unfold peek at 1, bind at 1. cbn.
  destruct (rest st) as [|c r] eqn:R.
  { intro H. injection H as <- <-. discriminate. }
  destruct ((c =? 13) || (c =? 10)); [intro H; injection H as <- <-; discriminate|].
  intro H. apply bind_inv in H.
  destruct H as [(m & st2 & K1 & K2)|[(e & K1 & ->)|[(z & K1 & ->)|[(K1 & ->)|(K1 & ->)]]]];
    try discriminate K1.
  injection K1 as <- <-.
  apply bind_inv in K2.
  destruct K2 as [(l & st3 & K1 & K2)|[(e & K1 & ->)|[(z & K1 & ->)|[(K1 & ->)|(K1 & ->)]]]];
    try discriminate.
  2:{ pose proof K1 as F; apply readline_facts in F. inversion F. }
  pose proof K1 as S1; apply readline_shrinks in S1. rewrite R in S1. cbn [List.length] in *.
  destruct (partition_at 58 l) as [[name v]|].
  2:{ injection K2 as <- <-. discriminate. }
  apply bind_inv in K2.
  destruct K2 as [(l' & st4 & K3 & K4)|[(e & K3 & ->)|[(z & K3 & ->)|[(K3 & ->)|(K3 & ->)]]]];
    try discriminate.
  - eapply IH; [|exact K4].
    pose proof K3 as TMP; apply WB_fold_lines in TMP; destruct TMP as [W _ _]. apply adv_len in W. lia.
  - exfalso. eapply fold_lines_fuel; [|exact K3|reflexivity]. lia.
Qed.

Definition NF {A} (m : M A) : Prop := forall st o st', m st = (o, st') -> o <> Fuel.

Lemma NF_bind {A B} (m : M A) (f : A -> M B) :
  NF m -> (forall a, NF (f a)) -> NF (bind m f).
Proof.
  intros Hm Hf st o st' H. apply bind_inv in H.
  destruct H as [(a & st1 & H1 & H2)|[(e & H1 & ->)|[(z & H1 & ->)|[(H1 & ->)|(H1 & ->)]]]];
    try discriminate.
  - eapply Hf; eauto.
  - exfalso. eapply Hm; eauto.
Qed.

Lemma NF_ret {A} (a : A) : NF (ret a).
Proof. intros st o st' H. injection H as <- <-. discriminate. Qed.

Lemma NF_raise {A} p e : NF (A := A) (raise_error p e).
Proof. intros st o st' H. injection H as <- <-. discriminate. Qed.

Lemma NF_tell : NF tell.
Proof. intros st o st' H. injection H as <- <-. discriminate. Qed.

Lemma NF_readline : NF readline.
Proof. intros st o st' H. apply readline_facts in H. destruct H; discriminate. Qed.

Lemma NF_readlineend : NF readlineend.
Proof.
  apply NF_bind; [apply NF_tell|]. intro p. apply NF_bind; [apply NF_readline|].
  intro l. destruct (is_nil l); [apply NF_ret|apply NF_raise].
Qed.

Lemma NF_parse_header_fields : NF parse_header_fields.
Proof.
  intros st o st' H. unfold parse_header_fields in H. eapply header_fields_fuel; [|exact H]. lia.
Qed.

Lemma NF_dump_complaints p m : NF (dump_complaints p m).
Proof. intros st o st' H. injection H as <- <-. discriminate. Qed.

Lemma NF_parse_request_heading : NF parse_request_heading.
Proof.
  apply NF_bind; [apply NF_tell|]. intro b. apply NF_bind; [apply NF_readline|]. intro line.
  destruct (split_on 32 line) as [|x [|y [|z [|w l]]]]; try apply NF_raise.
  destruct (is_http_version z); [|apply NF_raise].
  apply NF_bind; [apply NF_parse_header_fields|]. intro.
  apply NF_bind; [apply NF_readlineend|]. intro.
  apply NF_bind; [apply NF_dump_complaints|]. intro. apply NF_ret.
Qed.

Lemma NF_parse_response_heading : NF parse_response_heading.
Proof.
  apply NF_bind; [apply NF_tell|]. intro b. apply NF_bind; [apply NF_readline|]. intro line.
  destruct (split_on_2 32 line) as [|x [|y [|z [|w l]]]]; try apply NF_raise.
  destruct (is_http_version x && is_status_code y); [|apply NF_raise].
  apply NF_bind; [apply NF_parse_header_fields|]. intro.
  apply NF_bind; [apply NF_readlineend|]. intro.
  apply NF_bind; [apply NF_dump_complaints|]. intro. apply NF_ret.
Qed.

Lemma NF_read n : NF (read n).
Proof.
  intros st o st' H. apply read_cases in H.
  destruct H as [(H1 & -> & ->)|(r & ? & ? & ? & ? & ? & ? & ? & [(-> & ? & ?)|(e & -> & ? & ? & ?)])];
    discriminate.
Qed.

Lemma NF_parse_chunk n : NF (parse_chunk n).
Proof.
  apply NF_bind; [apply NF_tell|]. intro b. apply NF_bind; [apply NF_readline|]. intro line.
  cbv zeta. destruct (py_int16 _) as [size|]; [|apply NF_raise].
  destruct (size =? 0)%Z; [apply NF_ret|].
  destruct (_ <? _)%Z.
  - intros st o st' H. injection H as <- <-. discriminate.
  - apply NF_bind; [apply NF_read|]. intro. apply NF_bind; [apply NF_readlineend|]. intro. apply NF_ret.
Qed.

(** Successful computations that consume at least one byte. *)
Definition shrinks {A} (m : M A) : Prop :=
  forall st a st', m st = (Val a, st') -> (List.length (rest st') < List.length (rest st))%nat.

Lemma shrinks_bind_l {A B} (m : M A) (f : A -> M B) :
  shrinks m -> (forall a, WB (f a)) -> shrinks (bind m f).
Proof.
  intros Hm Hf st b st' H. apply bind_inv in H.
  destruct H as [(a & st1 & H1 & H2)|[(e & H1 & H2)|[(z & H1 & H2)|[(H1 & H2)|(H1 & H2)]]]];
    try discriminate.
  apply Hm in H1. apply Hf in H2. destruct H2 as [H2 _ _]. apply adv_len in H2. lia.
Qed.

Lemma shrinks_bind_r {A B} (m : M A) (f : A -> M B) :
  WB m -> (forall a, shrinks (f a)) -> shrinks (bind m f).
Proof.
  intros Hm Hf st b st' H. apply bind_inv in H.
  destruct H as [(a & st1 & H1 & H2)|[(e & H1 & H2)|[(z & H1 & H2)|[(H1 & H2)|(H1 & H2)]]]];
    try discriminate.
  apply Hm in H1. apply Hf in H2. destruct H1 as [H1 _ _]. apply adv_len in H1. lia.
Qed.

Lemma shrinks_readline : shrinks readline.
Proof. intros st a st' H. eapply readline_shrinks; eauto. Qed.

Lemma parse_chunk_shrinks n : shrinks (parse_chunk n).
Proof.
  apply shrinks_bind_r; [apply WB_tell|]. intro p.
  apply shrinks_bind_l; [apply shrinks_readline|].
  intro line. cbv zeta. destruct (py_int16 _) as [size|]; [|apply WB_raise].
  destruct (size =? 0)%Z; [apply WB_ret|].
  destruct (_ <? _)%Z.
  - intros st o st' H. injection H as <- <-. constructor; try discriminate; auto. apply adv_set_sane.
  - apply WB_bind; [apply WB_read|]. intro. apply WB_bind; [apply WB_readlineend|]. intro. apply WB_ret.
Qed.

Lemma chunks_loop_fuel fuel acc st o st' :
  (List.length (rest st) < fuel)%nat -> chunks_loop fuel acc st = (o, st') -> o <> Fuel.
Proof.
  revert acc st; induction fuel as [|fuel IH]; intros acc st L; [lia|].
  cbn [chunks_loop]. intro H. apply bind_inv in H.
  destruct H as [(m & st2 & K1 & K2)|[(e & K1 & ->)|[(z & K1 & ->)|[(K1 & ->)|(K1 & ->)]]]];
    try discriminate.
  - destruct m as [d|].
    + eapply IH; [|exact K2]. apply parse_chunk_shrinks in K1. lia.
    + injection K2 as <- <-. discriminate.
  - exfalso. eapply NF_parse_chunk; eauto.
Qed.

Lemma NF_chunked_framing : NF chunked_framing.
Proof.
  apply NF_bind.
  { intros st o st' H. unfold parse_chunks in H. eapply chunks_loop_fuel; [|exact H]. lia. }
  intro. apply NF_bind; [apply NF_parse_header_fields|]. intro.
  apply NF_bind; [apply NF_readlineend|]. intro. apply NF_ret.
Qed.

Lemma NF_parse_chunked m : NF (parse_chunked m).
Proof.
  intros st o st'. unfold parse_chunked.
  destruct (chunked_framing st) as [[[data t]|e|z| |] st1] eqn:E; intro H; cbn in H;
    injection H as <- <-; try discriminate.
  exfalso. eapply NF_chunked_framing; eauto.
Qed.

Lemma NF_process_content_length n m : NF (process_content_length n m).
Proof.
  intros st o st'. unfold process_content_length. destruct n as [n|].
  - destruct (_ <? _)%Z; [intro H; injection H as <- <-; discriminate|].
    destruct (read (Z.of_N n) st) as [o1 st1] eqn:E. pose proof E as F; apply NF_read in F.
    destruct o1; intro H; injection H as <- <-; congruence.
  - intro H. injection H as <- <-. discriminate.
Qed.

Lemma NF_parse_request_body E m : NF (parse_request_body E m).
Proof.
  unfold parse_request_body. destruct (rev (te_value E (entries m))) as [|c rcs].
  - destruct (cl_value (entries m)) as [| |n]; [apply NF_ret|apply NF_process_content_length|].
    destruct (n =? 0); [apply NF_ret|apply NF_process_content_length].
  - destruct (coding_is "chunked" c).
    + apply NF_bind; [apply NF_parse_chunked|]. intro. apply NF_ret.
    + intros st o st' H. injection H as <- <-. discriminate.
Qed.

Lemma NF_parse_response_body E req status m : NF (parse_response_body E req status m).
Proof.
  unfold parse_response_body.
  destruct (status =? 101); [intros st o st' H; injection H as <- <-; discriminate|].
  destruct (method_is "CONNECT" req && successful status);
    [intros st o st' H; injection H as <- <-; discriminate|].
  destruct (_ || _); [apply NF_ret|].
  destruct (rev (te_value E (entries m))) as [|c rcs].
  - destruct (cl_value (entries m)) as [| |n];
      [|apply NF_process_content_length|apply NF_process_content_length].
    apply NF_bind; [apply NF_read|]. intro. apply NF_ret.
  - destruct (coding_is "chunked" c).
    + apply NF_bind; [apply NF_parse_chunked|]. intro. apply NF_ret.
    + apply NF_bind; [apply NF_read|]. intro. apply NF_ret.
Qed.

Lemma NF_parse_request E : NF (parse_request E).
Proof.
  intros st o st'. unfold parse_request.
  destruct (parse_request_heading st) as [o1 st1] eqn:H1.
  pose proof H1 as F; apply NF_parse_request_heading in F.
  destruct o1 as [r|e|z| |]; try (intro H; injection H as <- <-; congruence).
  intro H. eapply NF_bind in H; [exact H|apply NF_parse_request_body|]. intro. apply NF_ret.
Qed.

Lemma shrinks_parse_request_heading : shrinks parse_request_heading.
Proof.
  apply shrinks_bind_r; [apply WB_tell|]. intro b. apply shrinks_bind_l; [apply shrinks_readline|].
  intro line.
  destruct (split_on 32 line) as [|x [|y [|z [|w l]]]]; try apply WB_raise.
  destruct (is_http_version z); [|apply WB_raise].
  apply WB_bind; [apply WB_parse_header_fields|]. intro.
  apply WB_bind; [apply WB_readlineend|]. intro.
  apply WB_bind; [apply WB_dump_complaints|]. intro. apply WB_ret.
Qed.

Lemma shrinks_parse_response_heading : shrinks parse_response_heading.
Proof.
  apply shrinks_bind_r; [apply WB_tell|]. intro b. apply shrinks_bind_l; [apply shrinks_readline|].
  intro line.
  destruct (split_on_2 32 line) as [|x [|y [|z [|w l]]]]; try apply WB_raise.
  destruct (is_http_version x && is_status_code y); [|apply WB_raise].
  apply WB_bind; [apply WB_parse_header_fields|]. intro.
  apply WB_bind; [apply WB_readlineend|]. intro.
  apply WB_bind; [apply WB_dump_complaints|]. intro. apply WB_ret.
Qed.

Lemma responses_loop_fuel fuel E req acc st o st' :
  (List.length (rest st) < fuel)%nat -> responses_loop fuel E req acc st = (o, st') -> o <> Fuel.
Proof.
  revert acc st; induction fuel as [|fuel IH]; intros acc st L; [lia|]. cbn [responses_loop].
  destruct (good st); [|intro H; injection H as <- <-; discriminate].
  destruct (parse_response_heading st) as [o1 st1] eqn:H1.
  pose proof H1 as F; apply NF_parse_response_heading in F.
  destruct o1 as [r|e|z| |]; intro H; try (injection H as <- <-; congruence).
  apply shrinks_parse_response_heading in H1.
  apply bind_inv in H.
  destruct H as [(m & st2 & K1 & K2)|[(e & K1 & ->)|[(z & K1 & ->)|[(K1 & ->)|(K1 & ->)]]]];
    try discriminate.
  - cbv zeta in K2. destruct (_ || _); [injection K2 as <- <-; discriminate|].
    eapply IH; [|exact K2]. apply parse_response_body_wb in K1. destruct K1 as [K1 _].
    apply adv_len in K1. lia.
  - exfalso. eapply NF_parse_response_body; eauto.
Qed.

Lemma NF_parse_responses E req : NF (parse_responses E req).
Proof. intros st o st' H. eapply responses_loop_fuel; [|exact H]. lia. Qed.

(** Computations that leave the end-of-file flag exact. *)
Definition mkx {A} (m : M A) : Prop :=
  forall st o st', okst st -> m st = (o, st') -> exact st'.

Lemma mkx_bind_l {A B} (m : M A) (f : A -> M B) :
  mkx m -> (forall a, WB (f a)) -> mkx (bind m f).
Proof.
  intros Hm Hf st o st' K H. apply bind_inv in H.
  destruct H as [(a & st1 & H1 & H2)|[(e & H1 & H2)|[(z & H1 & H2)|[(H1 & H2)|(H1 & H2)]]]];
    try (eapply Hm; eassumption).
  apply Hf in H2. destruct H2 as [H2 _ _]. apply (adv_exact H2). eapply Hm; eauto.
Qed.

Lemma mkx_readline : mkx readline.
Proof. intros st o st' K H. apply readline_facts in H. eapply readline_rel_exact; eauto. Qed.

Lemma mkx_parse_request_heading : mkx parse_request_heading.
Proof.
  intros st o st' K H. unfold parse_request_heading in H.
  rewrite bind_tell in H.
  revert K H. apply mkx_bind_l; [apply mkx_readline|]. intro line.
  destruct (split_on 32 line) as [|x [|y [|z [|w l]]]]; try apply WB_raise.
  destruct (is_http_version z); [|apply WB_raise].
  apply WB_bind; [apply WB_parse_header_fields|]. intro.
  apply WB_bind; [apply WB_readlineend|]. intro.
  apply WB_bind; [apply WB_dump_complaints|]. intro. apply WB_ret.
Qed.

Lemma mkx_parse_response_heading : mkx parse_response_heading.
Proof.
  intros st o st' K H. unfold parse_response_heading in H.
  rewrite bind_tell in H.
  revert K H. apply mkx_bind_l; [apply mkx_readline|]. intro line.
  destruct (split_on_2 32 line) as [|x [|y [|z [|w l]]]]; try apply WB_raise.
  destruct (is_http_version x && is_status_code y); [|apply WB_raise].
  apply WB_bind; [apply WB_parse_header_fields|]. intro.
  apply WB_bind; [apply WB_readlineend|]. intro.
  apply WB_bind; [apply WB_dump_complaints|]. intro. apply WB_ret.
Qed.

Lemma mkx_parse_request E : mkx (parse_request E).
Proof.
  intros st o st' K. unfold parse_request.
  destruct (parse_request_heading st) as [o1 st1] eqn:H1.
  pose proof (mkx_parse_request_heading K H1) as X.
  destruct o1 as [r|e|z| |]; intro H; try (injection H as <- <-; assumption).
  assert (adv st1 st' /\ quiet o) as [K1 K2].
  { eapply quiet_bind_ret; [|exact H]. intros. eapply parse_request_body_wb; eauto. }
  apply (adv_exact K1 X).
Qed.

Lemma parse_responses_exact E req st o st' :
  okst st -> good st = true -> parse_responses E req st = (o, st') -> exact st'.
Proof.
  intros K G. unfold parse_responses. cbn [responses_loop]. rewrite G.
  destruct (parse_response_heading st) as [o1 st1] eqn:H1.
  pose proof (mkx_parse_response_heading K H1) as X.
  destruct o1 as [r|e|z| |]; intro H; try (injection H as <- <-; assumption).
  apply bind_inv in H.
  destruct H as [(m & st2 & K1 & K2)|[(e & K1 & ->)|[(z & K1 & ->)|[(K1 & ->)|(K1 & ->)]]]];
    apply parse_response_body_wb in K1; destruct K1 as [K1 _];
    try (apply (adv_exact K1 X)).
  pose proof (adv_exact K1 X) as X2. cbv zeta in K2. destruct (_ || _).
  - injection K2 as <- <-. assumption.
  - apply responses_loop_wb in K2. destruct K2 as [K2 _]. apply (adv_exact K2 X2).
Qed.
