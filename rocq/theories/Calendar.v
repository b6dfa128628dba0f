(** The model's calendar arithmetic agrees with the calendar. *)
From Coq Require Import ZifyBool ZifyNat ZifyN.
From Verif Require Import Base Earley Grammar Syntax Actions HttpDate.
Local Open Scope Z_scope.
Local Open Scope list_scope.
Unset Strict Implicit.

Lemma mod_div_iff a n : 0 < n -> (a mod n = 0 <-> (n | a)).
Proof. intro H. apply Z.mod_divide. lia. Qed.

Lemma is_leap_spec y : is_leap y = true <-> leap y.
Proof.
  unfold is_leap, leap. rewrite andb_true_iff, orb_true_iff, negb_true_iff, !Z.eqb_eq, Z.eqb_neq.
  rewrite !mod_div_iff by lia. tauto.
Qed.

Lemma month_length_spec y m n : month_length y m n <-> 1 <= m <= 12 /\ n = days_in_month y m.
Proof.
  split.
  - intro H. inversion H as [m' I|m' I|L|L]; subst.
    + cbn in I. repeat (destruct I as [<-|I]; [split; [lia|reflexivity]|]). contradiction.
    + cbn in I. repeat (destruct I as [<-|I]; [split; [lia|reflexivity]|]). contradiction.
    + split; [lia|]. unfold days_in_month. apply is_leap_spec in L. now rewrite L.
    + split; [lia|]. unfold days_in_month. destruct (is_leap y) eqn:E; [|reflexivity]. now apply is_leap_spec in E.
  - intros [R ->]. unfold days_in_month. destruct (Z.eqb_spec m 2) as [->|N2].
    + destruct (is_leap y) eqn:E; constructor; [now apply is_leap_spec|]. intro L. apply is_leap_spec in L. congruence.
    + destruct (((m =? 4) || (m =? 6) || (m =? 9) || (m =? 11)))%bool eqn:E.
      * apply ml_30. cbn. lia.
      * apply ml_31. cbn. lia.
Qed.

Lemma days_pos y m : 28 <= days_in_month y m <= 31.
Proof. unfold days_in_month. destruct (m =? 2); [destruct (is_leap y); lia|]. destruct (_ || _)%bool; lia. Qed.

Lemma days_before_succ y m : 1 <= m -> days_before y (Z.to_nat (m + 1 - 1)) = days_before y (Z.to_nat (m - 1)) + days_in_month y m.
Proof.
  intro H. replace (Z.to_nat (m + 1 - 1)) with (S (Z.to_nat (m - 1))) by lia. cbn [days_before]. f_equal. f_equal. lia.
Qed.

Lemma year_days y : days_before_year (y + 1) = days_before_year y + days_before y (Z.to_nat (12 - 1)) + days_in_month y 12.
Proof.
  unfold days_before_year. replace (y + 1 - 1) with y by lia.
  change (Z.to_nat (12 - 1)) with 11%nat. cbn [days_before]. unfold days_in_month. cbn [Z.of_nat Pos.of_succ_nat Pos.succ Z.eqb Pos.eqb orb].
  assert (D : forall n, 0 < n -> y / n = (y - 1) / n + (if y mod n =? 0 then 1 else 0)).
  { intros n Hn. pose proof (Z.div_mod y n). pose proof (Z.mod_pos_bound y n Hn).
    destruct (Z.eqb_spec (y mod n) 0) as [E|E].
    - assert ((y - 1) / n = y / n - 1); [|lia]. symmetry. apply Z.div_unique with (n - 1); lia.
    - assert ((y - 1) / n = y / n); [|lia]. symmetry. apply Z.div_unique with (y mod n - 1); lia. }
  rewrite (D 4), (D 100), (D 400) by lia. unfold is_leap.
  assert (M100 : y mod 100 = 0 -> y mod 4 = 0).
  { rewrite !mod_div_iff by lia. intros [q ->]. exists (q * 25). lia. }
  assert (M400 : y mod 400 = 0 -> y mod 100 = 0).
  { rewrite !mod_div_iff by lia. intros [q ->]. exists (q * 4). lia. }
  destruct (Z.eqb_spec (y mod 4) 0), (Z.eqb_spec (y mod 100) 0), (Z.eqb_spec (y mod 400) 0); cbn [andb orb negb]; lia.
Qed.

(** The day after. *)
Definition valid (y m d : Z) : Prop := 1 <= y /\ 1 <= m <= 12 /\ 1 <= d <= days_in_month y m.

Lemma weekday_next a b : b = a + 1 -> (b + 6) mod 7 = ((a + 6) mod 7 + 1) mod 7.
Proof. intros ->. rewrite Z.add_mod_idemp_l by lia. f_equal. lia. Qed.

Lemma calendar_valid y m d k : calendar y m d k -> valid y m d /\ k = weekday y m d.
Proof.
  induction 1 as [|y m d k n C [[Y [Mo D]] ->] L Lt|y m d k C [[Y [Mo D]] ->] L Lt|y d k C [[Y [Mo D]] ->] L].
  - split; [|reflexivity]. unfold valid. cbn. lia.
  - apply month_length_spec in L. destruct L as [_ ->]. split; [unfold valid; lia|].
    unfold weekday. symmetry. apply weekday_next. unfold ordinal. lia.
  - apply month_length_spec in L. destruct L as [_ E]. split; [pose proof (days_pos y (m + 1)); unfold valid; lia|].
    unfold weekday. symmetry. apply weekday_next. unfold ordinal. rewrite days_before_succ by lia. lia.
  - apply month_length_spec in L. destruct L as [_ E]. split; [pose proof (days_pos (y + 1) 1); unfold valid; lia|].
    unfold weekday. symmetry. apply weekday_next. unfold ordinal. rewrite year_days. cbn [days_before Z.to_nat Z.sub Z.add Z.opp Z.pos_sub].
    change (Z.to_nat (1 - 1)) with 0%nat. cbn [days_before]. lia.
Qed.

Lemma calendar_all n : forall y m d, (Z.to_nat (ordinal y m d) <= n)%nat -> valid y m d -> exists k, calendar y m d k.
Proof.
  assert (NN : forall y k, 0 <= days_before y k). { intros y k. induction k; cbn [days_before]; [lia|]. pose proof (days_pos y (Z.of_nat (S k))). lia. }
  assert (YY : forall y, 1 <= y -> 0 <= days_before_year y).
  { intros y Y. unfold days_before_year. pose proof (Z.div_pos (y - 1) 4). pose proof (Z.div_pos (y - 1) 400).
    assert ((y - 1) / 100 <= y - 1). { apply Z.div_le_upper_bound; lia. } lia. }
  induction n as [|n IH]; intros y m d L [Y [Mo D]].
  - exfalso. unfold ordinal in L. specialize (NN y (Z.to_nat (m - 1))). specialize (YY y Y). lia.
  - destruct (Z.eq_dec d 1) as [->|D1].
    + destruct (Z.eq_dec m 1) as [->|M1].
      * destruct (Z.eq_dec y 1) as [->|Y1]; [exists 0; constructor|].
        assert (E : ordinal y 1 1 = ordinal (y - 1) 12 31 + 1).
        { unfold ordinal. pose proof (year_days (y - 1)) as E. replace (y - 1 + 1) with y in E by lia. rewrite E.
          change (days_in_month (y - 1) 12) with 31. change (Z.to_nat (1 - 1)) with 0%nat. cbn [days_before]. lia. }
        destruct (IH (y - 1) 12 31) as [k C].
        -- unfold ordinal in *. specialize (NN (y - 1) (Z.to_nat (12 - 1))). assert (0 <= days_before_year (y - 1)) by (apply YY; lia). lia.
        -- unfold valid. change (days_in_month (y - 1) 12) with 31. lia.
        -- exists ((k + 1) mod 7). replace y with (y - 1 + 1) by lia. eapply cal_year; [exact C|]. apply month_length_spec. split; [lia|reflexivity].
      * assert (E : ordinal y m 1 = ordinal y (m - 1) (days_in_month y (m - 1)) + 1).
        { unfold ordinal. pose proof (@days_before_succ y (m - 1)) as E. replace (m - 1 + 1 - 1) with (m - 1) in E by lia. rewrite E by lia. lia. }
        destruct (IH y (m - 1) (days_in_month y (m - 1))) as [k C].
        -- pose proof (days_pos y (m - 1)). unfold ordinal in *. specialize (NN y (Z.to_nat (m - 1 - 1))). specialize (YY y Y). lia.
        -- pose proof (days_pos y (m - 1)). unfold valid. lia.
        -- exists ((k + 1) mod 7). replace m with (m - 1 + 1) by lia. replace (days_in_month y (m - 1 + 1 - 1)) with (days_in_month y (m - 1)) in C by (f_equal; lia).
           eapply cal_month; [exact C| |lia]. apply month_length_spec. split; [lia|reflexivity].
    + destruct (IH y m (d - 1)) as [k C].
      * unfold ordinal in *. specialize (NN y (Z.to_nat (m - 1))). specialize (YY y Y). lia.
      * unfold valid. lia.
      * exists ((k + 1) mod 7). replace d with (d - 1 + 1) by lia. eapply cal_day; [exact C| |].
        -- apply month_length_spec. split; [lia|reflexivity].
        -- lia.
Qed.

Theorem calendar_spec y m d k : calendar y m d k <-> valid y m d /\ k = weekday y m d.
Proof.
  split; [apply calendar_valid|]. intros [H ->]. destruct (@calendar_all (Z.to_nat (ordinal y m d)) y m d (le_n _) H) as [k C].
  pose proof (calendar_valid C) as [_ E]. now rewrite <- E.
Qed.

Lemma valid_date_spec y m d : y <= 9999 -> valid_date y m d = true <-> exists k, calendar y m d k.
Proof.
  intro H. split.
  - intro E. exists (weekday y m d). apply calendar_spec. split; [|reflexivity]. unfold valid_date in E. unfold valid. lia.
  - intros [k C]. apply calendar_spec in C. destruct C as [V _]. unfold valid in V. unfold valid_date. lia.
Qed.
