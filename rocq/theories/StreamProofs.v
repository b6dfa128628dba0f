(** Lemmas about the stream primitives. *)
From Verif Require Import Base Stream.
From Coq Require Import ZifyBool ZifyNat ZifyN.

Lemma app_inj_len {A} (a b c d : list A) :
  a ++ b = c ++ d -> List.length a = List.length c -> a = c /\ b = d.
Proof.
  revert c; induction a as [|x a IH]; destruct c as [|y c]; simpl; intros H L; try discriminate; auto.
  injection H as -> H. injection L as L. destruct (IH c H L). subst. auto.
Qed.

(** [take_line] *)
Lemma take_line_spec n l a b :
  take_line n l = (a, b) ->
  l = a ++ b /\ lenN a <= n /\
  ((exists x, a = x ++ [10] /\ ~ In 10 x) \/
   (~ In 10 a /\ (lenN a = n \/ b = []))).
Proof.
  revert n a b; induction l as [|c l IH]; intros n a b H; simpl in H.
  - injection H as <- <-. split; [reflexivity|]. split; [simpl; lia|]. right. simpl. auto.
  - destruct (n =? 0) eqn:E.
    + apply N.eqb_eq in E. injection H as <- <-. subst. split; [reflexivity|]. split; [simpl; lia|].
      right. simpl. auto.
    + apply N.eqb_neq in E. destruct (c =? 10) eqn:E2.
      * apply N.eqb_eq in E2. injection H as <- <-. subst. split; [reflexivity|]. split; [simpl; lia|].
        left. exists []. auto.
      * apply N.eqb_neq in E2. destruct (take_line (N.pred n) l) as [a' b'] eqn:E3.
        injection H as <- <-. destruct (IH _ _ _ E3) as (H1 & H2 & H3).
        split; [simpl; congruence|]. split; [simpl; lia|].
        destruct H3 as [[x [-> Hx]]|[H3 H4]].
        -- left. exists (c :: x). split; [reflexivity|]. intros [?|?]; auto.
        -- right. split; [intros [?|?]; auto|]. destruct H4; [left; simpl; lia|now right].
Qed.

Lemma take_line_found n x b :
  ~ In 10 x -> lenN x < n -> take_line n (x ++ 10 :: b) = (x ++ [10], b).
Proof.
  revert n; induction x as [|c x IH]; intros n H1 H2; cbn [app take_line].
  - destruct (n =? 0) eqn:E; [apply N.eqb_eq in E; simpl in H2; lia|]. reflexivity.
  - cbn [lenN] in H2. destruct (n =? 0) eqn:E; [apply N.eqb_eq in E; lia|].
    destruct (c =? 10) eqn:E2; [apply N.eqb_eq in E2; subst; exfalso; apply H1; now left|].
    rewrite IH; [reflexivity| |lia]. intro. apply H1. now right.
Qed.

(** How a state moves forward by consuming [c]. *)
Definition consumes (c : str) (st st' : stream) : Prop :=
  rest st = c ++ rest st' /\ pos st' = pos st + lenN c.

(** The end-of-file flag is never raised too early. *)
Definition okst (st : stream) : Prop := eof st = true -> rest st = [].

(** The end-of-file flag is exact. *)
Definition exact (st : stream) : Prop := eof st = true <-> rest st = [].

Lemma exact_okst st : exact st -> okst st.
Proof. intros [H _]. exact H. Qed.

Lemma after_read_exact st n r : (eof st = true -> r = []) -> exact (after_read st n r).
Proof.
  intro H. unfold exact, after_read; simpl. split.
  - intro E. apply orb_true_iff in E. destruct E as [E|E]; [auto|]. destruct r; [reflexivity|discriminate].
  - intros ->. simpl. apply orb_true_r.
Qed.

Lemma consumes_nil st : consumes [] st st.
Proof. split; [reflexivity|]. simpl. lia. Qed.

Lemma consumes_app c d st st' st'' :
  consumes c st st' -> consumes d st' st'' -> consumes (c ++ d) st st''.
Proof.
  intros [H1 H2] [H3 H4]. split.
  - rewrite H1, H3. now rewrite app_assoc.
  - rewrite H4, H2, lenN_app. lia.
Qed.

(** [readline]: the two possible behaviours. *)
Inductive readline_rel (st : stream) : outcome str -> stream -> Prop :=
| rl_ok line term st' :
    ~ In 10 line ->
    (term = [13; 10] \/ term = [10] /\ (forall x, line <> x ++ [13])) ->
    lenN (line ++ term) <= max_line_length ->
    consumes (line ++ term) st st' ->
    (eof st' = (eof st || is_nil (rest st'))) ->
    sane st' = sane st ->
    pending st' = pending st ++ (match term with [10] => [1224] | _ => [] end) ->
    readline_rel st (Val line) st'
| rl_err c e st' :
    ~ In 10 c ->
    consumes c st st' ->
    (eof st' = (eof st || is_nil (rest st'))) ->
    sane st' = false ->
    pending st' = pending st ->
    pe_pos e = pos st ->
    (c = [] -> rest st = []) ->
    (lenN c = max_line_length /\ pe_expected e = ExpLineLimit
     \/ lenN c < max_line_length /\ rest st' = [] /\ pe_expected e = ExpLine) ->
    readline_rel st (ParseErr e) st'.

Lemma rev_cons_snoc {A} (l : list A) x y : rev l = x :: y -> l = rev y ++ [x].
Proof. intro H. rewrite <- (rev_involutive l), H. reflexivity. Qed.

Lemma readline_spec st :
  readline_rel st (fst (readline st)) (snd (readline st)).
Proof.
  unfold readline.
  destruct (take_line max_line_length (rest st)) as [r rest'] eqn:T.
  destruct (take_line_spec _ _ T) as (H1 & H2 & H3). cbv zeta.
  destruct H3 as [[x [-> Hx]]|[H3 H4]].
  - rewrite rev_app_distr. cbn [rev app]. change (10 =? 10) with true. cbv iota.
    destruct (rev x) as [|y x'] eqn:R.
    + assert (x = []) as -> by (rewrite <- (rev_involutive x), R; reflexivity).
      cbn [fst snd rev app].
      refine (@rl_ok st [] [10] _ _ _ _ _ _ _ _); simpl; auto.
      * right. split; [reflexivity|]. intros [|? ?]; discriminate.
      * split; simpl; auto.
    + pose proof (rev_cons_snoc _ R) as Ex. subst x.
      destruct (y =? 13) eqn:Y.
      * apply N.eqb_eq in Y. subst y. cbn [fst snd].
        assert (~ In 10 (rev x')) as Hx' by (intro; apply Hx; apply in_or_app; now left).
        refine (@rl_ok st (rev x') [13; 10] _ Hx' (or_introl eq_refl) _ _ _ _ _); simpl; auto.
        -- rewrite <- app_assoc in H2. exact H2.
        -- split; simpl.
           ++ rewrite H1, <- !app_assoc. reflexivity.
           ++ rewrite <- app_assoc. reflexivity.
        -- now rewrite app_nil_r.
      * apply N.eqb_neq in Y. cbn [fst snd].
        refine (@rl_ok st (rev (y :: x')) [10] _ _ _ _ _ _ _ _); cbn [rev]; auto.
        -- right. split; [reflexivity|]. intros z E. apply app_inj_tail in E. destruct E. congruence.
        -- split; [simpl; assumption|]. reflexivity.
  - assert (r = [] -> rest st = []) as HE.
    { intros ->. destruct H4 as [H4| ->]; [cbv in H4; discriminate|]. exact H1. }
    set (failed := if max_line_length <=? lenN r then _ else _).
    replace (match rev r with [] => failed | _ => _ end) with failed.
    2:{ destruct (rev r) as [|y x] eqn:R; [reflexivity|].
        assert (In y r) as I by (apply in_rev; rewrite R; now left).
        destruct (y =? 10) eqn:Y; [apply N.eqb_eq in Y; congruence|reflexivity]. }
    subst failed.
    destruct (max_line_length <=? lenN r) eqn:L; cbn [fst snd raise_error];
      refine (@rl_err st r _ _ H3 _ _ _ _ _ HE _); simpl; auto.
    + split; simpl; auto.
    + left. split; [|reflexivity]. apply N.leb_le in L. lia.
    + split; simpl; auto.
    + right. apply N.leb_gt in L. repeat split; auto. destruct H4; [lia|assumption].
Qed.

(** Reading a line that is there. *)
Lemma readline_crlf st line tail :
  ~ In 10 line -> lenN line + 2 <= max_line_length ->
  rest st = line ++ 13 :: 10 :: tail ->
  readline st = (Val line, after_read st (lenN line + 2) tail).
Proof.
  intros H1 H2 H3. unfold readline. rewrite H3.
  replace (line ++ 13 :: 10 :: tail) with ((line ++ [13]) ++ 10 :: tail) by (rewrite <- app_assoc; reflexivity).
  rewrite take_line_found.
  - rewrite rev_app_distr, rev_app_distr. cbn [rev app].
    rewrite rev_involutive, !lenN_app. cbn [lenN].
    replace (lenN line + N.succ 0 + N.succ 0) with (lenN line + 2) by lia. reflexivity.
  - intro H. apply in_app_or in H. destruct H as [H|[H|[]]]; [auto|discriminate].
  - rewrite lenN_app. cbn [lenN]. lia.
Qed.

Lemma readline_lf st line tail :
  ~ In 10 line -> lenN line + 1 <= max_line_length -> (forall x, line <> x ++ [13]) ->
  rest st = line ++ 10 :: tail ->
  readline st = (Val line, add_pending 1224 (after_read st (lenN line + 1) tail)).
Proof.
  intros H1 H2 H4 H3. unfold readline. rewrite H3.
  rewrite take_line_found; [|assumption|lia].
  rewrite rev_app_distr. cbn [rev app]. rewrite lenN_app. cbn [lenN].
  replace (lenN line + N.succ 0) with (lenN line + 1) by lia.
  change (10 =? 10) with true. cbv iota.
  destruct (rev line) as [|y x] eqn:R.
  - assert (line = []) as -> by (rewrite <- (rev_involutive line), R; reflexivity). reflexivity.
  - pose proof (rev_cons_snoc _ R) as Ex.
    destruct (y =? 13) eqn:Y; [apply N.eqb_eq in Y; subst y; destruct (H4 _ Ex)|].
    rewrite <- R, rev_involutive. reflexivity.
Qed.
