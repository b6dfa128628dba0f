(** A date is written in one way only: its fields can be read off. *)
From Coq Require Import ZifyBool ZifyNat ZifyN String.
From Verif Require Import Base HttpText HttpDate.
Open Scope nat_scope.
Open Scope list_scope.
Unset Strict Implicit.

Lemma app_inj_len {A} (u u' v v' : list A) : List.length u = List.length u' -> u ++ v = u' ++ v' -> u = u' /\ v = v'.
Proof.
  revert u'. induction u as [|a u IH]; intros [|a' u'] L E; try discriminate L; [auto|].
  injection E as -> E. injection L as L. destruct (IH _ L E) as [-> ->]. auto.
Qed.
Lemma cons_eq {A} (a b : A) u v : a :: u = b :: v -> a = b /\ u = v.
Proof. intro E. injection E. auto. Qed.
Lemma two_inj n m : two n = two m -> n = m.
Proof.
  unfold two. intro E. apply cons_eq in E. destruct E as [E1 E]. apply cons_eq in E. destruct E as [E2 _]. pose proof (N.div_mod' n 10). pose proof (N.div_mod' m 10). lia.
Qed.
Lemma four_inj n m : four n = four m -> n = m.
Proof.
  unfold four. intro E. apply app_inj_len in E; [|reflexivity]. destruct E as [E1 E2]. apply two_inj in E1, E2.
  pose proof (N.div_mod' n 100). pose proof (N.div_mod' m 100). lia.
Qed.
Lemma one_inj n m : one n = one m -> n = m.
Proof. unfold one. intro E. apply cons_eq in E. lia. Qed.

(** Tables: entries of one length, all different. *)
Fixpoint distinct (l : list str) : bool :=
  match l with [] => true | x :: l' => forallb (fun y => negb (str_eqb x y)) l' && distinct l' end.
Lemma distinct_nth l : distinct l = true -> forall i j, i < List.length l -> j < List.length l -> nth i l [] = nth j l [] -> i = j.
Proof.
  induction l as [|x l IH]; intros D i j Li Lj E; [cbn in Li; lia|]. cbn [distinct] in D. apply andb_true_iff in D. destruct D as [D1 D2].
  rewrite forallb_forall in D1.
  assert (X : forall k, k < List.length l -> x <> nth k l []).
  { intros k Lk ->. specialize (D1 _ (nth_In l [] Lk)). destruct (str_eqb (nth k l []) (nth k l [])) eqn:Z; [discriminate|].
    assert (str_eqb (nth k l []) (nth k l []) = true) by (now apply str_eqb_eq). congruence. }
  destruct i as [|i], j as [|j]; cbn [nth List.length] in *; auto.
  - exfalso. apply (X j); [lia|exact E].
  - exfalso. apply (X i); [lia|congruence].
  - f_equal. apply (IH D2); [lia|lia|exact E].
Qed.
Lemma same_lengths (n : nat) (l : list str) : forallb (fun x => Nat.eqb (List.length x) n) l = true -> forall i, i < List.length l -> List.length (nth i l []) = n.
Proof. intros H i L. rewrite forallb_forall in H. specialize (H _ (nth_In l [] L)). now apply Nat.eqb_eq in H. Qed.

Lemma weekday_len f : in_range f -> List.length (weekday_text f) = 3.
Proof. intros [R _]. unfold weekday_text. apply same_lengths; [reflexivity|]. cbn. lia. Qed.
Lemma month_len f : in_range f -> List.length (month_text f) = 3.
Proof. intros [_ [_ [R _]]]. unfold month_text. apply same_lengths; [reflexivity|]. cbn. lia. Qed.
Lemma weekday_inj f f' : in_range f -> in_range f' -> weekday_text f = weekday_text f' -> f_weekday f = f_weekday f'.
Proof.
  intros [R _] [R' _] E. unfold weekday_text in E. apply distinct_nth in E; [lia|reflexivity|cbn; lia|cbn; lia].
Qed.
Lemma long_weekday_inj f f' : in_range f -> in_range f' -> long_weekday_text f = long_weekday_text f' -> f_weekday f = f_weekday f'.
Proof.
  intros [R _] [R' _] E. unfold long_weekday_text in E. apply distinct_nth in E; [lia|reflexivity|cbn; lia|cbn; lia].
Qed.
Lemma month_inj f f' : in_range f -> in_range f' -> month_text f = month_text f' -> f_month f = f_month f'.
Proof.
  intros [_ [_ [R _]]] [_ [_ [R' _]]] E. unfold month_text in E. apply distinct_nth in E; [lia|reflexivity|cbn; lia|cbn; lia].
Qed.

(** A prefix without commas up to the first comma. *)
Lemma comma_inj (u u' v v' : str) : forallb (fun c => negb (N.eqb c 44)) u = true -> forallb (fun c => negb (N.eqb c 44)) u' = true ->
  u ++ 44%N :: v = u' ++ 44%N :: v' -> u = u' /\ v = v'.
Proof.
  revert u'. induction u as [|a u IH]; intros [|a' u'] F F' E; cbn [app forallb] in *.
  - injection E as ->. auto.
  - injection E as <- _. discriminate F'.
  - injection E as -> _. discriminate F.
  - apply andb_true_iff in F, F'. injection E as -> E. destruct (IH u' (proj2 F) (proj2 F') E) as [-> ->]. auto.
Qed.
Lemma long_weekday_free f : in_range f -> forallb (fun c => negb (N.eqb c 44)) (long_weekday_text f) = true.
Proof.
  intros [R _]. unfold long_weekday_text.
  assert (X : forallb (forallb (fun c => negb (N.eqb c 44))) long_weekdays = true) by reflexivity.
  rewrite forallb_forall in X. apply X, nth_In. cbn. lia.
Qed.
(** The fourth character tells the formats apart. *)
Lemma long_fourth f : in_range f -> exists a b c d w, long_weekday_text f = a :: b :: c :: d :: w /\ d <> 44%N /\ d <> 32%N.
Proof.
  intros [R _]. unfold long_weekday_text.
  assert (X : forallb (fun x => match x with _ :: _ :: _ :: d :: _ => negb (N.eqb d 44) && negb (N.eqb d 32) | _ => false end) long_weekdays = true) by reflexivity.
  rewrite forallb_forall in X. specialize (X (nth (N.to_nat (f_weekday f)) long_weekdays []) ltac:(apply nth_In; cbn; lia)).
  destruct (nth (N.to_nat (f_weekday f)) long_weekdays []) as [|a [|b [|c [|d w]]]]; try discriminate X. exists a, b, c, d, w. split; [reflexivity|]. lia.
Qed.
Lemma three f : in_range f -> exists a b c, weekday_text f = [a; b; c].
Proof. intro R. pose proof (weekday_len R) as L. destruct (weekday_text f) as [|a [|b [|c [|]]]]; try discriminate L. eauto. Qed.

Lemma time_inj f f' u u' : time_text f ++ u = time_text f' ++ u' -> f_hour f = f_hour f' /\ f_minute f = f_minute f' /\ f_second f = f_second f' /\ u = u'.
Proof.
  unfold time_text. rewrite <- !app_assoc. intro E. apply app_inj_len in E; [|reflexivity]. destruct E as [E1 E]. cbn [app s] in E.
  apply app_inj_len in E; [|reflexivity]. destruct E as [_ E]. apply app_inj_len in E; [|reflexivity]. destruct E as [E2 E].
  apply app_inj_len in E; [|reflexivity]. destruct E as [_ E]. apply app_inj_len in E; [|reflexivity]. destruct E as [E3 ->].
  apply two_inj in E1, E2, E3. auto.
Qed.

Ltac peel E := apply app_inj_len in E; [destruct E as [? E]|reflexivity || (rewrite ?weekday_len, ?month_len by assumption; reflexivity)].

Lemma fields_eq f f' : f_weekday f = f_weekday f' -> f_day f = f_day f' -> f_month f = f_month f' -> f_year f = f_year f' ->
  f_hour f = f_hour f' -> f_minute f = f_minute f' -> f_second f = f_second f' -> f = f'.
Proof. destruct f, f'. cbn. congruence. Qed.

Lemma imf_inj f f' : in_range f -> in_range f' -> imf_fixdate f = imf_fixdate f' -> f = f'.
Proof.
  intros R R' E. unfold imf_fixdate in E. do 8 peel E. apply time_inj in E. destruct E as [? [? [? _]]].
  apply fields_eq; auto; [apply weekday_inj|apply two_inj|apply month_inj|apply four_inj]; auto.
Qed.
Lemma rfc850_inj f f' : in_range f -> in_range f' -> (1900 <= f_year f < 2000)%N -> (1900 <= f_year f' < 2000)%N -> rfc850 f = rfc850 f' -> f = f'.
Proof.
  intros R R' Y Y' E. unfold rfc850 in E.
  change (s ", " ++ ?x) with (44%N :: (s " " ++ x)) in E. apply comma_inj in E; [|now apply long_weekday_free|now apply long_weekday_free].
  destruct E as [W E]. do 7 peel E. apply time_inj in E. destruct E as [? [? [? _]]].
  apply fields_eq; auto; [apply long_weekday_inj|apply two_inj|apply month_inj|]; auto.
  match goal with H : two (f_year f mod 100) = _ |- _ => apply two_inj in H; rename H into HY end.
  pose proof (N.div_mod' (f_year f) 100). pose proof (N.div_mod' (f_year f') 100).
  assert (f_year f / 100 = 19)%N by (symmetry; apply N.div_unique with (f_year f - 1900)%N; lia).
  assert (f_year f' / 100 = 19)%N by (symmetry; apply N.div_unique with (f_year f' - 1900)%N; lia). lia.
Qed.
Lemma asctime_inj d d' f f' : in_range f -> in_range f' -> List.length d = 2 -> List.length d' = 2 -> asctime d f = asctime d' f' ->
  d = d' /\ f_weekday f = f_weekday f' /\ f_month f = f_month f' /\ f_year f = f_year f' /\
  f_hour f = f_hour f' /\ f_minute f = f_minute f' /\ f_second f = f_second f'.
Proof.
  intros R R' L L' E. unfold asctime in E. do 4 peel E. apply app_inj_len in E; [|congruence]. destruct E as [? E]. peel E.
  apply time_inj in E. destruct E as [? [? [? E]]]. peel E. repeat split; auto; [apply weekday_inj|apply month_inj|apply four_inj]; auto.
Qed.

Lemma two_not_blank n : (n < 100)%N -> two n <> s " " ++ one (n mod 10) /\ forall m, two n <> s " " ++ one m.
Proof.
  intro L. assert (X : forall m, two n <> s " " ++ one m); [|split; auto].
  intros m E. unfold two, one in E. change (s " " ++ [(48 + m)%N]) with [32%N; (48 + m)%N] in E. apply cons_eq in E. lia.
Qed.

Theorem date_unique w f f' b b' : in_range f -> in_range f' -> written_as w f b -> written_as w f' b' -> f = f' /\ b = b'.
Proof.
  intros R R' W W'.
  assert (Imf : forall g, in_range g -> exists a b c v, imf_fixdate g = a :: b :: c :: 44%N :: v).
  { intros g Rg. destruct (three Rg) as [x [y [z E]]]. unfold imf_fixdate. rewrite E. cbn. eauto 6. }
  assert (Rfc : forall g, in_range g -> exists a b c d v, rfc850 g = a :: b :: c :: d :: v /\ d <> 44%N /\ d <> 32%N).
  { intros g Rg. destruct (long_fourth Rg) as [x [y [z [d [u [E N]]]]]]. unfold rfc850. rewrite E. cbn [app]. eauto 10. }
  assert (Asc : forall d g, in_range g -> exists a b c v, asctime d g = a :: b :: c :: 32%N :: v).
  { intros d g Rg. destruct (three Rg) as [x [y [z E]]]. unfold asctime. rewrite E. cbn. eauto 6. }
  destruct W as [E|E Y|E|E D], W' as [E'|E' Y'|E'|E' D']; rewrite E in E'; split; try reflexivity;
    try (apply imf_inj; assumption); try (apply rfc850_inj; assumption);
    try (destruct (Imf f R) as [? [? [? [? X]]]]); try (destruct (Imf f' R') as [? [? [? [? X']]]]);
    try (destruct (Rfc f R) as [? [? [? [? [? [Z Z0]]]]]]); try (destruct (Rfc f' R') as [? [? [? [? [? [Z' Z0']]]]]]);
    try (destruct (Asc (two (f_day f)) f R) as [? [? [? [? U]]]]); try (destruct (Asc (two (f_day f')) f' R') as [? [? [? [? U']]]]);
    try (destruct (Asc (s " " ++ one (f_day f)) f R) as [? [? [? [? U1]]]]); try (destruct (Asc (s " " ++ one (f_day f')) f' R') as [? [? [? [? U1']]]]);
    try (exfalso; rewrite ?X, ?X', ?Z, ?Z', ?U, ?U', ?U1, ?U1' in E'; injection E'; intros; subst; intuition congruence).
  - apply asctime_inj in E'; auto. destruct E' as [Ed [? [? [? [? [? ?]]]]]]. apply two_inj in Ed. now apply fields_eq.
  - exfalso. apply asctime_inj in E'; auto. destruct E' as [Ed _]. destruct R as [_ [R _]]. now apply (proj2 (two_not_blank R)) in Ed.
  - exfalso. apply asctime_inj in E'; auto. destruct E' as [Ed _]. destruct R' as [_ [R' _]]. symmetry in Ed. now apply (proj2 (two_not_blank R')) in Ed.
  - apply asctime_inj in E'; auto. destruct E' as [Ed [? [? [? [? [? ?]]]]]]. apply app_inj_len in Ed; [|reflexivity]. destruct Ed as [_ Ed]. apply one_inj in Ed. now apply fields_eq.
Qed.
