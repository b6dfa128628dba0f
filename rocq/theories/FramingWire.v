(** The framing parser against the wire format of FramingSpec.v: what it
    accepts is on the wire (soundness), and what is on the wire it accepts
    (completeness). *)
From Verif Require Import Base Stream StreamProofs Framing FramingBasics FramingSpec.
From Coq Require Import ZifyBool ZifyNat ZifyN.
Unset Strict Implicit.

(** * Stripping *)

Lemma lstrip_left_stripped x : left_stripped x (lstrip x).
Proof.
  induction x as [|c x IH]; cbn [lstrip].
  - exists []. repeat split; auto. discriminate.
  - destruct (is_blank c) eqn:B.
    + destruct IH as (b & E & Hb & Ht). exists (c :: b). repeat split; auto.
      cbn. now rewrite <- E.
    + exists []. repeat split; auto. intros d r E. injection E as <- <-. assumption.
Qed.

Lemma left_stripped_lstrip x y : left_stripped x y -> lstrip x = y.
Proof.
  intros (b & -> & Hb & Ht). rewrite lstrip_blank_app by assumption. now apply lstrip_nonblank_head.
Qed.

Lemma rstrip_split x :
  exists b, x = rstrip x ++ b /\ Forall (fun c => is_blank c = true) b /\
            (forall c r, rstrip x = r ++ [c] -> is_blank c = false).
Proof.
  induction x as [|c x (b & E & Hb & Ht)]; cbn [rstrip].
  - exists []. repeat split; auto. intros c [|? ?]; discriminate.
  - destruct (rstrip x) as [|d y] eqn:R.
    + destruct (is_blank c) eqn:B.
      * exists (c :: x). rewrite E. repeat split; auto.
        all: intros e [|? ?]; discriminate.
      * exists b. cbn. cbn in E. rewrite E. repeat split; auto.
        intros e [|f r] K; [injection K as ->; assumption|]. destruct r; discriminate.
    + exists b. split; [cbn; rewrite E at 1; reflexivity|]. split; [assumption|].
      intros e [|f r] K; [discriminate|]. injection K as -> K. eapply Ht; eauto.
Qed.

Lemma stripped_strip x y : stripped x y <-> strip x = y.
Proof.
  split.
  - intros (b1 & b2 & -> & H1 & H2 & T). now apply strip_pad.
  - intros <-. unfold strip.
    destruct (rstrip_split x) as (b2 & E2 & H2 & T2).
    destruct (lstrip_left_stripped (rstrip x)) as (b1 & E1 & H1 & T1).
    exists b1, b2. split; [rewrite app_assoc, <- E1; exact E2|]. split; [assumption|]. split; [assumption|].
    split; [assumption|]. intros c r K. apply (T2 c (b1 ++ r)). rewrite E1, K. now rewrite app_assoc.
Qed.

(** * Moving forward *)

Record moved (st : stream) (w : str) (ids : list N) (st' : stream) : Prop := mkMoved {
  mv_rest : rest st = w ++ rest st';
  mv_pos : pos st' = pos st + lenN w;
  mv_eof : eof st' = (eof st || is_nil (rest st'));
  mv_sane : sane st' = sane st;
  mv_pending : pending st' = pending st ++ ids
}.

Lemma moved_trans st w1 i1 st1 w2 i2 st2 :
  moved st w1 i1 st1 -> moved st1 w2 i2 st2 -> moved st (w1 ++ w2) (i1 ++ i2) st2.
Proof.
  intros [A1 A2 A3 A4 A5] [B1 B2 B3 B4 B5]. constructor.
  - rewrite A1, B1. apply app_assoc.
  - rewrite B2, A2, lenN_app. lia.
  - rewrite B3, A3. destruct (rest st1) eqn:R.
    + symmetry in B1. apply app_eq_nil in B1. destruct B1 as [_ B1]. rewrite B1. simpl.
      now rewrite !orb_true_r.
    + simpl. now rewrite orb_false_r.
  - congruence.
  - rewrite B5, A5. symmetry. apply app_assoc.
Qed.

(** Once something was read, reading nothing is a move too. *)
Definition settled (st : stream) : Prop := eof st = (eof st || is_nil (rest st)).

Lemma moved_settled st w i st' : moved st w i st' -> settled st'.
Proof. intros [_ _ H _ _]. unfold settled. rewrite H. destruct (eof st), (is_nil (rest st')); reflexivity. Qed.

Lemma moved_nil st : settled st -> moved st [] [] st.
Proof. intro H. constructor; simpl; auto; [lia|now rewrite app_nil_r]. Qed.

Lemma moved_add_pending st id : settled st -> moved st [] [id] (add_pending id st).
Proof. intro H. constructor; simpl; auto; lia. Qed.

Lemma settled_add_pending st id : settled st -> settled (add_pending id st).
Proof. auto. Qed.

(** Moves with the same text and the same rest end in the same place. *)
Lemma moved_det st w i st1 st2 : moved st w i st1 -> moved st w i st2 -> st1 = st2.
Proof.
  intros [A1 A2 A3 A4 A5] [B1 B2 B3 B4 B5]. rewrite A1 in B1. apply app_inv_head in B1.
  destruct st1, st2; simpl in *. subst. congruence.
Qed.

(** * Lines *)

Lemma readline_complete st l tail :
  line_ok l -> rest st = render_line l ++ tail ->
  exists st', readline st = (Val (text l), st') /\ moved st (render_line l) (line_notes l) st' /\
              rest st' = tail.
Proof.
  intros (H1 & H2 & H3) R. unfold render_line, line_notes, eol, eol_notes in *. destruct (crlf_end l).
  - rewrite <- app_assoc in R. cbn [app] in R.
    rewrite lenN_app in H3. cbn [lenN] in H3.
    exists (after_read st (lenN (text l) + 2) tail). split.
    + apply readline_crlf; auto; unfold max_line_length; lia.
    + split; [|reflexivity]. constructor; simpl; auto.
      * rewrite <- app_assoc. assumption.
      * rewrite lenN_app. cbn [lenN]. lia.
      * now rewrite app_nil_r.
  - rewrite <- app_assoc in R. cbn [app] in R.
    rewrite lenN_app in H3. cbn [lenN] in H3.
    exists (add_pending 1224 (after_read st (lenN (text l) + 1) tail)). split.
    + apply readline_lf; auto; unfold max_line_length; lia.
    + split; [|reflexivity]. constructor; simpl; auto.
      * rewrite <- app_assoc. assumption.
      * rewrite lenN_app. cbn [lenN]. lia.
Qed.

Lemma readline_sound st t st' :
  readline st = (Val t, st') ->
  exists b, line_ok (mkLine t b) /\ moved st (render_line (mkLine t b)) (eol_notes b) st'.
Proof.
  intro H. apply readline_facts in H.
  inversion H as [line term st1 Hn Ht Hl [Hc1 Hc2] He Hs Hp|]; subst.
  destruct Ht as [->|[-> Hx]].
  - exists true. split.
    + split; [assumption|]. split; [discriminate|]. exact Hl.
    + constructor; auto.
  - exists false. split.
    + split; [assumption|]. split; [auto|]. exact Hl.
    + constructor; auto.
Qed.

Lemma render_line_nonempty l : render_line l <> [].
Proof.
  unfold render_line, eol. intro H. apply app_eq_nil in H. destruct H as [_ H].
  destruct (crlf_end l); discriminate.
Qed.

Lemma eol_render b : eol b = render_line (mkLine [] b).
Proof. reflexivity. Qed.

Lemma line_ok_nil b : line_ok (mkLine [] b).
Proof.
  split; [intros []|]. split; [intros _ [|? ?]; discriminate|]. destruct b; vm_compute; discriminate.
Qed.

Lemma readlineend_complete st b tail :
  rest st = eol b ++ tail ->
  exists st', readlineend st = (Val tt, st') /\ moved st (eol b) (eol_notes b) st' /\ rest st' = tail.
Proof.
  intro R. destruct (@readline_complete st (mkLine [] b) tail (line_ok_nil b) R) as (st' & H1 & H2 & H3).
  exists st'. split; [|auto]. unfold readlineend. rewrite bind_tell, (bind_val _ H1). reflexivity.
Qed.

Lemma readlineend_sound st u st' :
  readlineend st = (Val u, st') -> exists b, moved st (eol b) (eol_notes b) st'.
Proof.
  unfold readlineend. rewrite bind_tell. intro H. apply bind_inv in H.
  destruct H as [(l & st1 & H1 & H2)|[(e & H1 & H2)|[(z & H1 & H2)|[(H1 & H2)|(H1 & H2)]]]];
    try discriminate.
  destruct l as [|c l]; [|discriminate]. injection H2 as <- <-.
  destruct (readline_sound H1) as (b & _ & M). exists b. exact M.
Qed.

(** * Folded lines *)

Lemma bind_complain {B} id (f : unit -> M B) st : bind (complain id) f st = f tt (add_pending id st).
Proof. reflexivity. Qed.


Definition no_blank_next (st : stream) : Prop :=
  forall c r, rest st = c :: r -> is_blank c = false.

Definition joined (vs : str) (pieces : list str) : str := vs ++ flat_map (fun p => 32 :: p) pieces.

Definition cont_ok (l : wline) : Prop := line_ok l /\ starts_blank (text l).

Definition conts_notes (ls : list wline) : list N := flat_map (fun l => 1016 :: line_notes l) ls.

Lemma fold_lines_complete ls : forall fuel vs st tail,
  Forall cont_ok ls -> settled st ->
  rest st = render_lines ls ++ tail -> (forall c r, tail = c :: r -> is_blank c = false) ->
  (List.length ls < fuel)%nat ->
  exists st', fold_lines fuel vs st = (Val (joined vs (map (fun l => lstrip (text l)) ls)), st') /\
              moved st (render_lines ls) (conts_notes ls) st' /\ rest st' = tail.
Proof.
  induction ls as [|l ls IH]; intros fuel vs st tail F S R T L;
    (destruct fuel as [|fuel]; [simpl in L; lia|]); cbn [fold_lines]; unfold bind at 1, peek; cbn [fst snd].
  - cbn [render_lines flat_map app] in R. exists st. unfold joined. cbn. rewrite app_nil_r. split.
    + rewrite R. destruct tail as [|c r]; [reflexivity|]. now rewrite (T c r eq_refl).
    + split; [now apply moved_nil|assumption].
  - inversion F as [|? ? [Hl (c & r & Ec & Eb)] F']; subst.
    cbn [render_lines flat_map] in R. rewrite <- app_assoc in R.
    assert (rest st = c :: (r ++ eol (crlf_end l)) ++ render_lines ls ++ tail) as R'.
    { rewrite R. unfold render_line. rewrite Ec. reflexivity. }
    rewrite R', Eb.
    assert (rest (add_pending 1016 st) = render_line l ++ (render_lines ls ++ tail)) as R1
      by exact R.
    destruct (readline_complete Hl R1) as (st1 & Q1 & Q2 & Q3).
    destruct (IH fuel (vs ++ 32 :: lstrip (text l)) st1 tail F') as (st2 & P1 & P2 & P3); auto.
    { eapply moved_settled; eauto. } { simpl in L. lia. }
    exists st2. split; [|split; [|assumption]].
    + rewrite bind_complain.
      rewrite (bind_val _ Q1), P1. unfold joined. cbn [map flat_map].
      rewrite <- app_assoc. reflexivity.
    + pose proof (moved_trans (moved_add_pending 1016 S) (moved_trans Q2 P2)) as M. exact M.
Qed.

Lemma fold_lines_sound : forall fuel vs st v st',
  settled st -> fold_lines fuel vs st = (Val v, st') ->
  exists ls, Forall cont_ok ls /\ v = joined vs (map (fun l => lstrip (text l)) ls) /\
             moved st (render_lines ls) (conts_notes ls) st' /\ no_blank_next st'.
Proof.
  induction fuel as [|fuel IH]; intros vs st v st' S H; [discriminate|].
  cbn [fold_lines] in H. unfold bind at 1, peek in H. cbn [fst snd] in H.
  assert (forall (K : no_blank_next st), ret vs st = (Val v, st') ->
    exists ls, Forall cont_ok ls /\ v = joined vs (map (fun l => lstrip (text l)) ls) /\
             moved st (render_lines ls) (conts_notes ls) st' /\ no_blank_next st') as Done.
  { intros K E. injection E as <- <-. exists []. split; [constructor|]. unfold joined. simpl.
    rewrite app_nil_r. split; [reflexivity|]. split; [now apply moved_nil|assumption]. }
  destruct (rest st) as [|c r] eqn:R.
  - apply Done; [|assumption]. intros c r K. congruence.
  - destruct (is_blank c) eqn:B.
    2:{ apply Done; [|assumption]. intros c' r' K. rewrite R in K. injection K as <- <-. assumption. }
    rewrite bind_complain in H.
    apply bind_inv in H.
    destruct H as [(l & st1 & H1 & H2)|[(e & H1 & H2)|[(z & H1 & H2)|[(H1 & H2)|(H1 & H2)]]]];
      try discriminate.
    destruct (readline_sound H1) as (b & Hl & M1).
    destruct (IH _ _ _ _ (moved_settled M1) H2) as (ls & F & -> & M2 & T).
    exists (mkLine l b :: ls). split; [|split; [|split; [|assumption]]].
    + constructor; [|assumption]. split; [assumption|].
      pose proof (mv_rest M1) as K. simpl in K. rewrite R in K. unfold render_line in K. cbn in K.
      destruct l as [|d l].
      * exfalso. destruct b; cbn in K; injection K as -> _; discriminate B.
      * injection K as -> _. exists d, l. auto.
    + unfold joined. cbn [map flat_map text]. rewrite <- app_assoc. reflexivity.
    + exact (moved_trans (moved_add_pending 1016 S) (moved_trans M1 M2)).
Qed.

(** * Header fields *)

Lemma f_line_head f : field_ok f -> exists c r, text (f_line f) = c :: r /\ c <> 13 /\ c <> 10.
Proof.
  intros (H1 & (H2 & _) & H3 & _). cbn [f_line text] in *.
  destruct (f_name f) as [|c x].
  - exists 58, (f_raw f). repeat split; discriminate.
  - exists c, (x ++ 58 :: f_raw f). split; [reflexivity|]. split.
    + intros ->. exact (H3 x eq_refl).
    + intros ->. apply H2. now left.
Qed.

Definition entry_of (f : wfield) : entry :=
  (f_name f, strip (joined (f_raw f) (map (fun l => lstrip (text l)) (f_conts f)))).

Lemma field_entry_iff f e : field_entry f e <-> e = entry_of f.
Proof.
  unfold field_entry, entry_of. split.
  - intros (H1 & ps & H2 & H3). destruct e as [n v]. cbn in *. subst n. f_equal.
    apply stripped_strip in H3. rewrite <- H3. f_equal. unfold joined. f_equal.
    clear H3. induction H2 as [|l p ls ps H F IH]; [reflexivity|]. cbn.
    rewrite (left_stripped_lstrip H), IH. reflexivity.
  - intros ->. cbn. split; [reflexivity|].
    exists (map (fun l => lstrip (text l)) (f_conts f)). split.
    + induction (f_conts f); constructor; auto. apply lstrip_left_stripped.
    + now apply stripped_strip.
Qed.

Lemma entries_iff fs es : Forall2 field_entry fs es <-> es = map entry_of fs.
Proof.
  split.
  - induction 1 as [|f e fs es H F IH]; [reflexivity|]. cbn. apply field_entry_iff in H. congruence.
  - intros ->. induction fs; constructor; auto. now apply field_entry_iff.
Qed.

Lemma line_head_render l c r : text l = c :: r -> exists r', render_line l = c :: r'.
Proof. unfold render_line. intros ->. cbn. eauto. Qed.

Lemma render_length_pos l : (0 < List.length (render_line l))%nat.
Proof. pose proof (@render_line_nonempty l). destruct (render_line l); [congruence|simpl; lia]. Qed.

Lemma render_lines_length ls : (List.length ls <= List.length (render_lines ls))%nat.
Proof.
  induction ls as [|l ls IH]; [simpl; lia|]. cbn [render_lines flat_map]. rewrite app_length.
  pose proof (render_length_pos l). unfold render_lines in IH. simpl. lia.
Qed.

Lemma header_fields_complete fs : forall fuel acc st crlf tail,
  Forall field_ok fs -> Forall (fun f => ~ starts_blank (text (f_line f))) (tl fs) ->
  settled st -> rest st = render_fields fs ++ eol crlf ++ tail ->
  (List.length (rest st) < fuel)%nat ->
  exists st', header_fields fuel acc st = (Val (acc ++ map entry_of fs), st') /\
              moved st (render_fields fs) (fields_notes fs) st' /\ rest st' = eol crlf ++ tail.
Proof.
  induction fs as [|f fs IH]; intros fuel acc st crlf tail F1 F2 S R L;
    (destruct fuel as [|fuel]; [lia|]); cbn [header_fields]; unfold bind at 1, peek; cbn [fst snd].
  - cbn in R. exists st. cbn. rewrite app_nil_r. split.
    + rewrite R. destruct crlf; reflexivity.
    + split; [now apply moved_nil|assumption].
  - inversion F1 as [|? ? Hf F1']; subst. pose proof (f_line_head Hf) as (c & r & Ec & Ec1 & Ec2).
    destruct Hf as (Hn & Hl & Hc & Hcs).
    cbn [render_fields flat_map] in R. unfold render_field in R. rewrite <- !app_assoc in R.
    destruct (line_head_render Ec) as (r' & Er).
    assert (rest st = c :: r' ++ render_lines (f_conts f) ++ flat_map render_field fs ++ eol crlf ++ tail)
      as R' by (rewrite R, Er; reflexivity).
    rewrite R'. destruct ((c =? 13) || (c =? 10)) eqn:Ecc; [lia|].
    rewrite bind_tell.
    destruct (readline_complete Hl R) as (st1 & Q1 & Q2 & Q3).
    rewrite (bind_val _ Q1). cbn [f_line text]. rewrite partition_at_app by assumption.
    assert (List.length (rest st) = List.length (render_line (f_line f)) + List.length (rest st1))%nat as L1.
    { rewrite (mv_rest Q2), app_length. reflexivity. }
    pose proof (render_length_pos (f_line f)) as L2.
    destruct (@fold_lines_complete (f_conts f) fuel (f_raw f) st1
                (flat_map render_field fs ++ eol crlf ++ tail)) as (st2 & P1 & P2 & P3); auto.
    { eapply moved_settled; eauto. }
    { intros d q K. destruct fs as [|g fs].
      - cbn in K. destruct crlf; injection K as <- _; reflexivity.
      - cbn [tl] in F2. inversion F2 as [|? ? F2a F2b]; subst. inversion F1' as [|? ? Hg F1'']; subst.
        destruct (f_line_head Hg) as (c' & q' & Ec' & _).
        destruct (line_head_render Ec') as (r2 & Er2).
        cbn [flat_map] in K. unfold render_field in K at 1. rewrite Er2 in K. injection K as <- _.
        destruct (is_blank c') eqn:B; [|reflexivity]. exfalso. apply F2a. exists c', q'. auto. }
    { pose proof (render_lines_length (f_conts f)) as L3. rewrite Q3 in L1. rewrite app_length in L1. lia. }
    rewrite (bind_val _ P1).
    destruct (IH fuel (acc ++ [entry_of f]) st2 crlf tail) as (st3 & N1 & N2 & N3); auto.
    { destruct fs as [|g fs]; [constructor|]. cbn [tl] in *. now inversion F2. }
    { eapply moved_settled; eauto. }
    { rewrite (mv_rest P2), app_length in L1. lia. }
    exists st3. split; [|split; [|assumption]].
    + etransitivity; [exact N1|]. rewrite <- app_assoc. reflexivity.
    + pose proof (moved_trans (moved_trans Q2 P2) N2) as M. exact M.
Qed.

Lemma header_fields_sound : forall fuel acc st es st',
  settled st -> header_fields fuel acc st = (Val es, st') ->
  exists fs, Forall field_ok fs /\ es = acc ++ map entry_of fs /\
    (no_blank_next st -> Forall (fun f => ~ starts_blank (text (f_line f))) fs) /\
    Forall (fun f => ~ starts_blank (text (f_line f))) (tl fs) /\
    moved st (render_fields fs) (fields_notes fs) st'.
Proof.
  induction fuel as [|fuel IH]; intros acc st es st' S H; [discriminate|].
  cbn [header_fields] in H. unfold bind at 1, peek in H. cbn [fst snd] in H.
  assert (ret acc st = (Val es, st') ->
    exists fs, Forall field_ok fs /\ es = acc ++ map entry_of fs /\
    (no_blank_next st -> Forall (fun f => ~ starts_blank (text (f_line f))) fs) /\
    Forall (fun f => ~ starts_blank (text (f_line f))) (tl fs) /\
    moved st (render_fields fs) (fields_notes fs) st') as Done.
  { intros E. injection E as <- <-. exists []. simpl. rewrite app_nil_r. repeat split; auto;
      now apply moved_nil. }
  destruct (rest st) as [|c r] eqn:R; [auto|].
  destruct ((c =? 13) || (c =? 10)) eqn:Ec; [auto|]. clear Done.
  rewrite bind_tell in H. apply bind_inv in H.
  destruct H as [(l & st1 & H1 & H2)|[(e & H1 & H2)|[(z & H1 & H2)|[(H1 & H2)|(H1 & H2)]]]];
    try discriminate.
  destruct (readline_sound H1) as (b & Hl & M1).
  destruct (partition_at 58 l) as [[name v]|] eqn:P; [|discriminate].
  apply partition_at_some in P. destruct P as [-> Pn].
  apply bind_inv in H2.
  destruct H2 as [(vs & st2 & H2 & H3)|[(e & H2 & H3)|[(z & H2 & H3)|[(H2 & H3)|(H2 & H3)]]]];
    try discriminate.
  destruct (fold_lines_sound (moved_settled M1) H2) as (ls & F & -> & M2 & T).
  destruct (IH _ _ _ _ (moved_settled M2) H3) as (fs & Fs & -> & NB & _ & M3).
  exists (mkField name v b ls :: fs).
  assert (exists q, rest st = c :: q /\ exists q2, name ++ 58 :: v = c :: q2) as HD.
  { exists r. split; [assumption|]. pose proof (mv_rest M1) as K. rewrite R in K.
    unfold render_line in K. cbn [text] in K.
    destruct (name ++ 58 :: v) as [|d q] eqn:Q; [destruct name; discriminate|].
    injection K as -> _. eauto. }
  destruct HD as (q & HD1 & q2 & HD2).
  split; [|split; [|split; [|split]]].
  - constructor; [|assumption]. split; [assumption|]. split; [assumption|]. split; [|exact F].
    cbn [f_name]. intros x ->. cbn in HD2. injection HD2 as <- _. discriminate Ec.
  - rewrite <- app_assoc. reflexivity.
  - intro NBst. constructor; [|now apply NB]. cbn [f_line text f_name f_raw].
    intros (d & q' & K1 & K2). rewrite HD2 in K1. injection K1 as <- <-.
    rewrite (NBst _ _ HD1) in K2. discriminate.
  - cbn [tl]. now apply NB.
  - exact (moved_trans (moved_trans M1 M2) M3).
Qed.

(** A block of fields and the empty line after it. *)
Lemma block_complete es ids w : forall st tail,
  block_on_wire es ids w -> settled st -> rest st = w ++ tail ->
  exists st1 st2, parse_header_fields st = (Val es, st1) /\ readlineend st1 = (Val tt, st2) /\
    moved st w ids st2 /\ rest st2 = tail.
Proof.
  intros st tail (fs & crlf & [F1 F2] & Es & -> & ->) S R. rewrite <- app_assoc in R.
  apply entries_iff in Es. subst es.
  destruct (@header_fields_complete fs (Datatypes.S (Datatypes.S (List.length (rest st)))) [] st crlf tail)
    as (st1 & H1 & H2 & H3); auto.
  destruct (readlineend_complete H3) as (st2 & K1 & K2 & K3).
  exists st1, st2. split; [exact H1|]. split; [assumption|]. split; [|assumption].
  exact (moved_trans H2 K2).
Qed.

Lemma block_sound st es st1 u st2 :
  settled st -> parse_header_fields st = (Val es, st1) -> readlineend st1 = (Val u, st2) ->
  exists ids w, block_on_wire es ids w /\ moved st w ids st2.
Proof.
  intros S H1 H2. destruct (header_fields_sound S H1) as (fs & F & -> & _ & NB & M1).
  destruct (readlineend_sound H2) as (b & M2).
  exists (fields_notes fs ++ eol_notes b), (render_fields fs ++ eol b). split.
  - exists fs, b. split; [split; assumption|]. split; [now apply entries_iff|]. auto.
  - exact (moved_trans M1 M2).
Qed.

(** * Complaints *)

Lemma once_app seen ids x :
  once seen (ids ++ [x]) =
  once seen ids ++ (if existsb (N.eqb x) (seen ++ ids) then [] else [x]).
Proof.
  revert seen; induction ids as [|y ids IH]; intro seen; cbn.
  - rewrite app_nil_r. destruct (existsb (N.eqb x) seen); reflexivity.
  - destruct (existsb (N.eqb y) seen) eqn:E.
    + rewrite IH. f_equal. rewrite !existsb_app. cbn.
      destruct (N.eqb x y) eqn:Exy; [|reflexivity].
      apply N.eqb_eq in Exy. subst y. rewrite E. reflexivity.
    + rewrite IH. cbn. f_equal. f_equal. rewrite !existsb_app. cbn.
      destruct (N.eqb x y), (existsb (N.eqb x) seen); reflexivity.
Qed.

Lemma once_In seen ids x : In x (once seen ids) <-> In x ids /\ ~ In x seen.
Proof.
  revert seen; induction ids as [|y ids IH]; intro seen; cbn; [tauto|].
  destruct (existsb (N.eqb y) seen) eqn:E.
  - rewrite IH. split; [tauto|]. intros [[->|H] N]; [|tauto]. exfalso. apply N.
    apply existsb_exists in E. destruct E as (z & Z1 & Z2). apply N.eqb_eq in Z2. now subst.
  - cbn. rewrite IH. cbn. split.
    + intros [->|[H N]].
      * split; [auto|]. intro K. assert (existsb (N.eqb x) seen = true); [|congruence].
        apply existsb_exists. exists x. split; [assumption|]. apply N.eqb_refl.
      * tauto.
    + intros [[->|H] N]; [auto|]. destruct (N.eq_dec y x); [auto|]. right. tauto.
Qed.

Lemma place_eqb_refl p : place_eqb p p = true.
Proof. destruct p; reflexivity. Qed.

Lemma existsb_place_notes id p ids pre :
  existsb (note_eqb (mkNote id (CtxPlace p))) pre = false ->
  existsb (note_eqb (mkNote id (CtxPlace p))) (pre ++ place_notes p ids) = existsb (N.eqb id) ids.
Proof.
  intro H. rewrite existsb_app, H. clear H. cbn. unfold place_notes.
  destruct (existsb (N.eqb id) ids) eqn:E.
  - apply existsb_exists in E. destruct E as (x & X1 & X2). apply N.eqb_eq in X2. subst x.
    apply existsb_exists. exists (mkNote id (CtxPlace p)). split.
    + apply in_map_iff. exists id. split; [reflexivity|]. apply once_In. auto.
    + unfold note_eqb. cbn. now rewrite N.eqb_refl, place_eqb_refl.
  - apply not_true_iff_false. intro E2.
    apply existsb_exists in E2. destruct E2 as (n & N1 & N2).
    apply in_map_iff in N1. destruct N1 as (x & <- & X). apply once_In in X.
    unfold note_eqb in N2. cbn in N2. apply andb_true_iff in N2. destruct N2 as [N2 _].
    apply N.eqb_eq in N2. subst x.
    assert (existsb (N.eqb id) ids = true); [|congruence].
    apply existsb_exists. exists id. split; [tauto|]. apply N.eqb_refl.
Qed.

Definition with_notes (m : message) (l : list note) : message :=
  mkMessage (entries m) (trailer m) (mbody m) (offset m) (notes m ++ l).

Lemma dump_fold p m ids :
  (forall id, existsb (note_eqb (mkNote id (CtxPlace p))) (notes m) = false) ->
  fold_left (fun m id => msg_complain (mkNote id (CtxPlace p)) m) ids m =
  with_notes m (place_notes p ids).
Proof.
  intro H. induction ids as [|x ids IH] using rev_ind.
  - cbn. unfold with_notes, place_notes. cbn. rewrite app_nil_r. now destruct m.
  - rewrite fold_left_app. cbn [fold_left]. rewrite IH. unfold msg_complain, with_notes. cbn.
    unfold add_note. rewrite existsb_place_notes by apply H.
    unfold place_notes. rewrite once_app. cbn [app].
    destruct (existsb (N.eqb x) ids); rewrite map_app, ?app_nil_r; [reflexivity|].
    cbn. now rewrite app_assoc.
Qed.

Lemma dump_complaints_eq p m st :
  (forall id, existsb (note_eqb (mkNote id (CtxPlace p))) (notes m) = false) ->
  dump_complaints p m st = (Val (with_notes m (place_notes p (pending st))), clear_pending st).
Proof. intro H. unfold dump_complaints. now rewrite dump_fold. Qed.
