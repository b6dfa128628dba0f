(** What [int(x, 16)] accepts, compared with hexadecimal numbers. *)
From Verif Require Import Base Stream StreamProofs Framing FramingBasics FramingSpec FramingWire.
From Coq Require Import ZifyBool ZifyNat ZifyN.
Unset Strict Implicit.

Definition hexdigit (c d : N) : Prop :=
  (48 <= c <= 57 /\ d = c - 48) \/ (65 <= c <= 70 /\ d = c - 55) \/ (97 <= c <= 102 /\ d = c - 87).

(** [1*HEXDIG] and its value. *)
Inductive hexadecimal : str -> N -> Prop :=
| hex_one c d : hexdigit c d -> hexadecimal [c] d
| hex_more x n c d : hexadecimal x n -> hexdigit c d -> hexadecimal (x ++ [c]) (16 * n + d).

Lemma hex_val_iff c d : hex_val c = Some d <-> hexdigit c d.
Proof.
  unfold hex_val, hexdigit, is_digit.
  destruct ((48 <=? c) && (c <=? 57)) eqn:A.
  { split; [intro H; injection H as <-; lia|]. intros [[_ ->]|[[H _]|[H _]]]; [reflexivity|lia|lia]. }
  destruct ((97 <=? c) && (c <=? 102)) eqn:B.
  { split; [intro H; injection H as <-; lia|]. intros [[H ->]|[[H _]|[_ ->]]]; [lia|lia|reflexivity]. }
  destruct ((65 <=? c) && (c <=? 70)) eqn:C.
  { split; [intro H; injection H as <-; lia|]. intros [[H ->]|[[_ ->]|[H _]]]; [lia|reflexivity|lia]. }
  split; [discriminate|lia].
Qed.

Lemma hex_run_app x : forall acc n c d, hex_run acc x = Some n -> hexdigit c d ->
  (forall y, In y x -> exists e, hexdigit y e) ->
  hex_run acc (x ++ [c]) = Some (16 * n + d).
Proof.
  induction x as [|y x IH]; intros acc n c d H D F; cbn [hex_run app] in *.
  - injection H as <-. apply hex_val_iff in D. now rewrite D.
  - destruct (F y (or_introl eq_refl)) as (e & He). apply hex_val_iff in He. rewrite He in *.
    apply IH; auto. intros z I. apply F. now right.
Qed.

Lemma hexadecimal_chars x n : hexadecimal x n -> x <> [] /\ forall y, In y x -> exists e, hexdigit y e.
Proof.
  induction 1 as [c d H|x n c d H [IH1 IH2] D].
  - split; [discriminate|]. intros y [<-|[]]. eauto.
  - split; [intro K; apply app_eq_nil in K; destruct K; discriminate|].
    intros y I. apply in_app_or in I. destruct I as [I|[<-|[]]]; eauto.
Qed.

Lemma hex_digits_complete x n : hexadecimal x n -> hex_digits x = Some n.
Proof.
  induction 1 as [c d H|x n c d H IH D].
  - cbn. apply hex_val_iff in H. now rewrite H.
  - apply hexadecimal_chars in H. destruct H as [NE F]. destruct x as [|y x]; [congruence|].
    cbn in *. destruct (F y (or_introl eq_refl)) as (e & He). apply hex_val_iff in He. rewrite He in *.
    apply hex_run_app; auto.
Qed.

Lemma py_lstrip_nospace x : (forall c r, x = c :: r -> py_space c = false) -> py_lstrip x = x.
Proof. destruct x as [|c x]; intro H; cbn; [reflexivity|]. now rewrite (H c x eq_refl). Qed.

Lemma hexdigit_plain c d : hexdigit c d -> py_space c = false /\ is_blank c = false /\ c <> 45 /\ c <> 43 /\ c <> 120 /\ c <> 88.
Proof. unfold hexdigit, py_space, is_blank. lia. Qed.

Theorem hex_size_complete t n blanks :
  hexadecimal t n -> Forall (fun c => is_blank c = true) blanks -> chunk_size (t ++ blanks) n.
Proof.
  intros H B. unfold chunk_size. rewrite rstrip_app_blank by assumption.
  pose proof (hexadecimal_chars H) as [NE F].
  assert (forall y, In y t -> py_space y = false /\ is_blank y = false /\ y <> 45 /\ y <> 43 /\ y <> 120 /\ y <> 88) as P.
  { intros y I. destruct (F y I) as (e & He). eapply hexdigit_plain; eauto. }
  rewrite rstrip_nonblank_last.
  2:{ intros c r ->. apply P. apply in_or_app. right. now left. }
  unfold py_int16, py_strip. rewrite (@py_lstrip_nospace t).
  2:{ intros c r ->. apply P. now left. }
  rewrite (@py_lstrip_nospace (rev t)).
  2:{ intros c r K. apply P. apply in_rev. rewrite K. now left. }
  rewrite rev_involutive. destruct t as [|c t]; [congruence|].
  destruct (P c (or_introl eq_refl)) as (_ & _ & P1 & P2 & _).
  apply N.eqb_neq in P1, P2. rewrite P1, P2.
  assert (hex_unsigned (c :: t) = hex_digits (c :: t)) as ->.
  { cbn [hex_unsigned]. destruct t as [|c2 t]; [reflexivity|].
    destruct (P c2 (or_intror (or_introl eq_refl))) as (_ & _ & _ & _ & P3 & P4).
    apply N.eqb_neq in P3, P4. rewrite P3, P4. cbn [orb]. now rewrite andb_false_r. }
  now rewrite (hex_digits_complete H).
Qed.

(** The characters that can occur in what [int(x, 16)] accepts. *)
Definition size_char (c : N) : Prop :=
  (exists d, hexdigit c d) \/ In c (s "_xX+-") \/ py_space c = true.

Lemma hex_run_chars : forall x acc n, hex_run acc x = Some n -> Forall size_char x.
Proof.
  assert (forall k x, (List.length x < k)%nat -> forall acc n, hex_run acc x = Some n -> Forall size_char x) as G.
  { induction k as [|k IH]; intros x L acc n H; [lia|].
    destruct x as [|c x]; [constructor|]. cbn [hex_run] in H. cbn [List.length] in L.
    destruct (hex_val c) as [d|] eqn:V.
    - apply hex_val_iff in V. constructor; [left; eauto|]. eapply IH; [|exact H]. lia.
    - destruct (c =? 95) eqn:U; [|discriminate]. apply N.eqb_eq in U. subst c.
      destruct x as [|c2 x]; [discriminate|]. destruct (hex_val c2) as [d|] eqn:V2; [|discriminate].
      apply hex_val_iff in V2. constructor; [right; left; cbn; auto|].
      constructor; [left; eauto|]. eapply IH; [|exact H]. cbn [List.length] in L. lia. }
  intros x. eapply G. apply Nat.lt_succ_diag_r.
Qed.

Lemma hex_digits_chars x n : hex_digits x = Some n -> Forall size_char x.
Proof.
  destruct x as [|c x]; [discriminate|]. cbn. destruct (hex_val c) eqn:V; [|discriminate].
  intro H. apply hex_val_iff in V. constructor; [left; eauto|]. eapply hex_run_chars; eauto.
Qed.

Lemma hex_unsigned_chars x n : hex_unsigned x = Some n -> Forall size_char x.
Proof.
  unfold hex_unsigned. destruct x as [|z [|c x]]; try apply hex_digits_chars.
  destruct ((z =? 48) && ((c =? 120) || (c =? 88))) eqn:E; [|apply hex_digits_chars].
  assert (z = 48 /\ (c = 120 \/ c = 88)) as [-> C] by lia. intro H.
  constructor; [left; exists 0; unfold hexdigit; lia|].
  constructor; [right; left; destruct C as [->| ->]; cbn; auto|].
  destruct x as [|u x]; [discriminate|]. destruct (u =? 95) eqn:U.
  - apply N.eqb_eq in U. subst u. constructor; [right; left; cbn; auto|]. eapply hex_digits_chars; eauto.
  - eapply hex_digits_chars; eauto.
Qed.

Lemma py_lstrip_chars x : Forall size_char (py_lstrip x) -> Forall size_char x.
Proof.
  induction x as [|c x IH]; cbn; [auto|]. destruct (py_space c) eqn:P; [|auto].
  intro H. constructor; [right; right; assumption|auto].
Qed.

Lemma py_strip_chars x : Forall size_char (py_strip x) -> Forall size_char x.
Proof.
  unfold py_strip. intro H. apply py_lstrip_chars.
  apply Forall_rev in H. rewrite rev_involutive in H. apply py_lstrip_chars in H.
  apply Forall_rev in H. now rewrite rev_involutive in H.
Qed.

Theorem int16_chars x z : py_int16 (rstrip x) = Some z -> Forall size_char x.
Proof.
  intro H. destruct (rstrip_split x) as (b & E & Fb & _). rewrite E. apply Forall_app. split.
  - apply py_strip_chars. unfold py_int16 in H.
    destruct (py_strip (rstrip x)) as [|c y]; [discriminate|].
    destruct (c =? 45) eqn:C1.
    { apply N.eqb_eq in C1. subst c. constructor; [right; left; cbn; auto 10|].
      destruct (hex_unsigned y) eqn:U; [|discriminate]. eapply hex_unsigned_chars; eauto. }
    destruct (c =? 43) eqn:C2.
    { apply N.eqb_eq in C2. subst c. constructor; [right; left; cbn; auto 10|].
      destruct (hex_unsigned y) eqn:U; [|discriminate]. eapply hex_unsigned_chars; eauto. }
    destruct (hex_unsigned (c :: y)) eqn:U; [|discriminate]. eapply hex_unsigned_chars; eauto.
  - eapply Forall_impl; [|exact Fb]. intros c B. right. right. unfold is_blank, py_space in *. lia.
Qed.

(** ** Exactly what [int(x, 16)] accepts *)

(** Hexadecimal digits, with single underscores between them. *)
Inductive digits : str -> N -> Prop :=
| digit_one c d : hexdigit c d -> digits [c] d
| digit_more x n c d : digits x n -> hexdigit c d -> digits (x ++ [c]) (16 * n + d)
| digit_spaced x n c d : digits x n -> hexdigit c d -> digits (x ++ [95; c]) (16 * n + d).
(** They may have a prefix. *)
Definition prefixes : list str := [[]; s "0x"; s "0X"; s "0x_"; s "0X_"].
(** A sign. *)
Inductive signed : str -> N -> Z -> Prop :=
| no_sign n : signed [] n (Z.of_N n)
| plus n : signed (s "+") n (Z.of_N n)
| minus n : signed (s "-") n (- Z.of_N n).
(** [x] is a number in base 16 as Python reads it. *)
Definition literal (x : str) (z : Z) : Prop :=
  exists before sign prefix ds after n, x = before ++ sign ++ prefix ++ ds ++ after /\
    Forall (fun c => py_space c = true) before /\ Forall (fun c => py_space c = true) after /\
    In prefix prefixes /\ digits ds n /\ signed sign n z.

Lemma hexdigit_unique c d d' : hexdigit c d -> hexdigit c d' -> d = d'.
Proof. unfold hexdigit. lia. Qed.
Lemma hex_run_split : forall k x, (List.length x < k)%nat -> forall acc n y, hex_run acc x = Some n -> hex_run acc (x ++ y) = hex_run n y.
Proof.
  induction k as [|k IH]; intros x L acc n y H; [lia|]. destruct x as [|c x]; [cbn in H; injection H as <-; reflexivity|]. cbn [hex_run app] in *. cbn [List.length] in L.
  destruct (hex_val c) as [d|]; [apply IH; [lia|exact H]|]. destruct (c =? 95); [|discriminate]. destruct x as [|c2 x]; [discriminate|]. cbn [app]. cbn [List.length] in L.
  destruct (hex_val c2); [|discriminate]. apply IH; [lia|exact H].
Qed.
Lemma digits_complete x n : digits x n -> hex_digits x = Some n.
Proof.
  induction 1 as [c d H|x n c d H IH D|x n c d H IH D].
  - cbn. apply hex_val_iff in H. now rewrite H.
  - destruct x as [|y x]; [discriminate|]. cbn [hex_digits app] in *. destruct (hex_val y); [|discriminate].
    rewrite (hex_run_split (Nat.lt_succ_diag_r _) [c] IH). cbn [hex_run]. apply hex_val_iff in D. now rewrite D.
  - destruct x as [|y x]; [discriminate|]. cbn [hex_digits app] in *. destruct (hex_val y); [|discriminate].
    rewrite (hex_run_split (Nat.lt_succ_diag_r _) [95; c] IH). cbn [hex_run]. change (hex_val 95) with (@None N). cbn [N.eqb]. change (95 =? 95) with true. cbv iota.
    apply hex_val_iff in D. now rewrite D.
Qed.
Lemma run_sound : forall k x, (List.length x < k)%nat -> forall acc n pre, hex_run acc x = Some n -> digits pre acc -> digits (pre ++ x) n.
Proof.
  induction k as [|k IH]; intros x L acc n pre H D; [lia|]. destruct x as [|c x]; [cbn in H; injection H as <-; now rewrite app_nil_r|]. cbn [hex_run] in *. cbn [List.length] in L.
  destruct (hex_val c) as [d|] eqn:V.
  - apply hex_val_iff in V. replace (pre ++ c :: x) with ((pre ++ [c]) ++ x) by now rewrite <- app_assoc. eapply IH; [lia|exact H|]. now constructor.
  - destruct (c =? 95) eqn:U; [|discriminate]. apply N.eqb_eq in U. subst c. destruct x as [|c2 x]; [discriminate|]. cbn [List.length] in L. destruct (hex_val c2) as [d|] eqn:V2; [|discriminate].
    apply hex_val_iff in V2. replace (pre ++ 95 :: c2 :: x) with ((pre ++ [95; c2]) ++ x) by now rewrite <- app_assoc. eapply IH; [lia|exact H|]. now constructor.
Qed.
Lemma digits_iff x n : hex_digits x = Some n <-> digits x n.
Proof.
  split; [|apply digits_complete]. destruct x as [|c x]; [discriminate|]. cbn [hex_digits]. destruct (hex_val c) as [d|] eqn:V; [|discriminate]. intro H.
  apply hex_val_iff in V. change (c :: x) with ([c] ++ x). eapply run_sound; [apply Nat.lt_succ_diag_r|exact H|]. now constructor.
Qed.
Lemma digits_chars x n : digits x n -> exists c y, x = c :: y /\ (exists d, hexdigit c d) /\ Forall (fun c => c = 95 \/ exists d, hexdigit c d) y.
Proof.
  induction 1 as [c d H|x n c d H (c0 & y & -> & H0 & F) D|x n c d H (c0 & y & -> & H0 & F) D].
  - exists c, []. split; [reflexivity|]. split; [eauto|constructor].
  - exists c0, (y ++ [c]). split; [reflexivity|]. split; [exact H0|]. apply Forall_app. split; [exact F|]. constructor; [right; eauto|constructor].
  - exists c0, (y ++ [95; c]). split; [reflexivity|]. split; [exact H0|]. apply Forall_app. split; [exact F|]. constructor; [now left|]. constructor; [right; eauto|constructor].
Qed.
Lemma digits_last x n : digits x n -> exists y c d, x = y ++ [c] /\ hexdigit c d.
Proof. destruct 1 as [c d H|x n c d H D|x n c d H D]; [exists [], c, d; auto|exists x, c, d; auto|exists (x ++ [95]), c, d; split; [now rewrite <- app_assoc|exact D]]. Qed.
Lemma unsigned_iff x n : hex_unsigned x = Some n <-> exists prefix ds, x = prefix ++ ds /\ In prefix prefixes /\ digits ds n.
Proof.
  split.
  - unfold hex_unsigned. destruct x as [|z [|c x]]; try (intro H; apply digits_iff in H; exists []; eexists; split; [reflexivity|]; split; [now left|exact H]).
    destruct ((z =? 48) && ((c =? 120) || (c =? 88))) eqn:E; [|intro H; apply digits_iff in H; exists []; eexists; split; [reflexivity|]; split; [now left|exact H]].
    assert (z = 48 /\ (c = 120 \/ c = 88)) as [-> C] by lia. destruct x as [|u x]; [discriminate|]. destruct (u =? 95) eqn:U; intro H; apply digits_iff in H.
    + apply N.eqb_eq in U. subst u. destruct C as [-> | ->]; [exists (s "0x_")|exists (s "0X_")]; eexists; (split; [reflexivity|]; split; [cbn [prefixes In]; tauto|exact H]).
    + destruct C as [-> | ->]; [exists (s "0x")|exists (s "0X")]; eexists; (split; [reflexivity|]; split; [cbn [prefixes In]; tauto|exact H]).
  - intros (prefix & ds & -> & I & D). pose proof (digits_complete D) as K. destruct (digits_chars D) as (c & y & -> & (d & Hd) & F).
    assert (c =? 95 = false) as U by (unfold hexdigit in Hd; lia).
    cbn [prefixes In] in I. destruct I as [<-|[<-|[<-|[<-|[<-|[]]]]]]; unfold hex_unsigned; cbn [app].
    + change ([] ++ c :: y) with (c :: y). destruct y as [|c2 y]; [exact K|]. inversion F as [|? ? F1 F2]; subst.
      assert ((c2 =? 120) || (c2 =? 88) = false) as -> by (destruct F1 as [->|[d2 F1]]; [reflexivity|unfold hexdigit in F1; lia]). now rewrite andb_false_r.
    + change (s "0x" ++ c :: y) with (48 :: 120 :: c :: y). change ((48 =? 48) && ((120 =? 120) || (120 =? 88))) with true. cbv iota. now rewrite U.
    + change (s "0X" ++ c :: y) with (48 :: 88 :: c :: y). change ((48 =? 48) && ((88 =? 120) || (88 =? 88))) with true. cbv iota. now rewrite U.
    + change (s "0x_" ++ c :: y) with (48 :: 120 :: 95 :: c :: y). change ((48 =? 48) && ((120 =? 120) || (120 =? 88))) with true. cbv iota. change (95 =? 95) with true. cbv iota. exact K.
    + change (s "0X_" ++ c :: y) with (48 :: 88 :: 95 :: c :: y). change ((48 =? 48) && ((88 =? 120) || (88 =? 88))) with true. cbv iota. change (95 =? 95) with true. cbv iota. exact K.
Qed.
Lemma lstrip_parts x : exists b, x = b ++ py_lstrip x /\ Forall (fun c => py_space c = true) b.
Proof.
  induction x as [|c x (b & E & F)]; [exists []; auto|]. cbn. destruct (py_space c) eqn:P; [exists (c :: b); split; [cbn; congruence|auto]|exists []; auto].
Qed.
Lemma strip_parts x : exists b a, x = b ++ py_strip x ++ a /\ Forall (fun c => py_space c = true) b /\ Forall (fun c => py_space c = true) a.
Proof.
  unfold py_strip. destruct (lstrip_parts x) as (b & E & F). destruct (lstrip_parts (rev (py_lstrip x))) as (a & E' & F').
  exists b, (rev a). split; [|split; [exact F|now apply Forall_rev]]. rewrite <- rev_app_distr, <- E', rev_involutive. exact E.
Qed.
Lemma lstrip_spaces b x : Forall (fun c => py_space c = true) b -> py_lstrip (b ++ x) = py_lstrip x.
Proof. induction 1 as [|c b H F IH]; [reflexivity|]. cbn. now rewrite H. Qed.
Lemma strip_spaces b x a : Forall (fun c => py_space c = true) b -> Forall (fun c => py_space c = true) a -> x <> [] ->
  (forall c r, x = c :: r -> py_space c = false) -> (forall r c, x = r ++ [c] -> py_space c = false) -> py_strip (b ++ x ++ a) = x.
Proof.
  intros B A N H L. unfold py_strip. rewrite lstrip_spaces by exact B. rewrite (@py_lstrip_nospace (x ++ a)).
  - rewrite rev_app_distr, lstrip_spaces by now apply Forall_rev. rewrite (@py_lstrip_nospace (rev x)); [apply rev_involutive|]. intros c r K. apply (L (rev r)). rewrite <- (rev_involutive x), K. reflexivity.
  - intros c r K. destruct x as [|c' x]; [congruence|]. injection K as -> _. now apply (H c x).
Qed.
Theorem literal_iff x z : py_int16 x = Some z <-> literal x z.
Proof.
  split.
  - intro H. destruct (strip_parts x) as (b & a & E & B & A). unfold py_int16 in H. destruct (py_strip x) as [|c y]; [discriminate|].
    assert (G : forall sign t, c :: y = sign ++ t -> forall n, hex_unsigned t = Some n -> signed sign n z -> literal x z).
    { intros sign t S n U Z. apply unsigned_iff in U. destruct U as (prefix & ds & -> & I & D). exists b, sign, prefix, ds, a, n.
      split; [rewrite E, S, <- !app_assoc; reflexivity|]. split; [exact B|]. split; [exact A|]. auto. }
    destruct (c =? 45) eqn:C1; [|destruct (c =? 43) eqn:C2]; (destruct (hex_unsigned _) as [n|] eqn:U; [|discriminate]); cbn in H; injection H as <-.
    + apply N.eqb_eq in C1. subst c. apply (G (s "-") y eq_refl n U). constructor.
    + apply N.eqb_eq in C2. subst c. apply (G (s "+") y eq_refl n U). constructor.
    + apply (G [] (c :: y) eq_refl n U). constructor.
  - intros (b & sign & prefix & ds & a & n & -> & B & A & I & D & S).
    assert (U : hex_unsigned (prefix ++ ds) = Some n) by (apply unsigned_iff; eauto).
    assert (HD : exists c t d, prefix ++ ds = c :: t /\ hexdigit c d).
    { destruct (digits_chars D) as (c & y & -> & (d & Hd) & _). cbn [prefixes In] in I. destruct I as [<-|[<-|[<-|[<-|[<-|[]]]]]];
        [exists c, y, d; auto|exists 48; do 2 eexists; (split; [reflexivity|]; left; split; [lia|reflexivity]) ..]. }
    destruct HD as (c & t & d & HT & Hc). destruct (digits_last D) as (y & l & e & -> & Hl).
    assert (P : py_strip (b ++ (sign ++ prefix ++ y ++ [l]) ++ a) = sign ++ prefix ++ y ++ [l]).
    { apply strip_spaces; [exact B|exact A|rewrite HT; destruct sign; discriminate| |].
      - intros c' r K. rewrite HT in K. destruct S; [|injection K as <- _; reflexivity ..]. injection K as <- _. exact (proj1 (hexdigit_plain Hc)).
      - intros r c' K. rewrite !app_assoc in K. apply app_inj_tail in K. destruct K as [_ <-]. exact (proj1 (hexdigit_plain Hl)). }
    rewrite <- !app_assoc in *. unfold py_int16. rewrite P. destruct S.
    + rewrite HT in *. cbn [app]. destruct (hexdigit_plain Hc) as (_ & _ & N1 & N2 & _). apply N.eqb_neq in N1, N2. rewrite N1, N2, U. reflexivity.
    + change (s "+" ++ prefix ++ y ++ [l]) with (43 :: (prefix ++ y ++ [l])). change (43 =? 45) with false. change (43 =? 43) with true. cbv iota. now rewrite U.
    + change (s "-" ++ prefix ++ y ++ [l]) with (45 :: (prefix ++ y ++ [l])). change (45 =? 45) with true. cbv iota. now rewrite U.
Qed.
(** Blanks after it do not matter. *)
Theorem chunk_literal x z : py_int16 (rstrip x) = Some z <-> literal x z.
Proof.
  destruct (rstrip_split x) as (b & E & B & _). assert (B' : Forall (fun c => py_space c = true) b) by (eapply Forall_impl; [|exact B]; intros c H; unfold is_blank, py_space in *; lia).
  assert (S : forall y, py_strip (y ++ b) = py_strip y).
  { intro y. unfold py_strip. destruct (lstrip_parts y) as (w & E1 & F1). destruct (py_lstrip y) as [|c r] eqn:L.
    - rewrite app_nil_r in E1. subst w. rewrite <- (app_nil_r (y ++ b)), lstrip_spaces by (now apply Forall_app). reflexivity.
    - rewrite E1, <- app_assoc, lstrip_spaces by exact F1. assert (C : py_space c = false).
      { clear - L. induction y as [|a y IH]; [discriminate|]. cbn in L. destruct (py_space a) eqn:A; [auto|]. now injection L as <- _. }
      rewrite (@py_lstrip_nospace ((c :: r) ++ b)) by (intros ? ? K; injection K as <- _; exact C). rewrite rev_app_distr, lstrip_spaces by now apply Forall_rev. reflexivity. }
  rewrite <- literal_iff. unfold py_int16. rewrite E at 2. now rewrite S.
Qed.
