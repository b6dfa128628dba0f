(** What [HTTP_date] means. *)
From Coq Require Import ZifyBool ZifyNat ZifyN Permutation String.
From Verif Require Import Base Earley EarleySpec Parse Grammar GrammarSem GrammarLang GrammarWF GrammarVals GrammarExcl GrammarCalc GrammarRend
  Syntax Actions Reading HttpText HttpDate Calendar SyntaxVals.
Open Scope nat_scope.
Open Scope list_scope.
Unset Strict Implicit.

Section Dates.
Variable nested : pyf -> list val -> val * list vcomplaint.
Notation pf := (pyfun nested).
Notation textual := (textual rec_rules pf).
Notation M := (M rec_rules pf).
Notation V := (V rec_rules pf).
Notation A := (A rec_rules pf).

(** ** Fixed strings *)

(** [x] reads only [w]. *)
Definition konst (x : symbol) (w : str) : Prop :=
  exists ns, written (V x) (fun _ : unit => True) (fun _ => w) (fun _ => ns) (fun _ => []).

Lemma konst_text x w : textual x (fun u => u = w) -> konst x w.
Proof.
  intro T. exists [VStr w]. intros u ns cs. rewrite (V_text T). split.
  - intros [-> [-> ->]]. exists tt. auto.
  - intros [_ [_ [-> [-> P]]]]. apply Permutation_nil in P. auto.
Qed.
Lemma octet_textual c : textual (octet c) (fun w => w = [c]).
Proof.
  eapply textual_ext; [apply (@textual_class nested (octet c) None (bits_of (octet c)) (fun d => N.eqb d c)); [reflexivity|apply testbit_octet]|].
  intro w. split; [intros [d [-> E]]; apply N.eqb_eq in E; now subst|intros ->; exists c; split; [reflexivity|lia]].
Qed.
Lemma konst_octet c : konst (octet c) [c].
Proof. apply konst_text, octet_textual. Qed.
Lemma konst_lit x : forallb (fun c => negb (is_alpha c)) (s x) = true -> konst (lit x) (s x).
Proof. intro H. now apply konst_text, lit_textual. Qed.
Lemma konst_A x w : konst x w -> exists ns, written (A x) (fun _ : unit => True) (fun _ => w) (fun _ => ns) (fun _ => []).
Proof.
  intros [ns H]. destruct (eph1 x) eqn:E; [exists ns; now apply wa_eph|].
  exists (unskip (collapse ns)). apply (@wa_node rec_rules pf unit x (fun _ => True) (fun _ => w) (fun _ => collapse ns) (fun _ => []) E).
  intros u v cs. rewrite M_V. split.
  - intros [n [X ->]]. apply H in X. destruct X as [a [_ [-> [-> P]]]]. exists a. auto.
  - intros [a [_ [-> [-> P]]]]. exists ns. split; [|reflexivity]. apply H. exists a. auto.
Qed.
Lemma konst_seq x y u v : konst x u -> konst y v -> konst (seq2 x y) (u ++ v).
Proof.
  intros H1 H2. apply konst_A in H1, H2. destruct H1 as [n1 H1], H2 as [n2 H2]. exists (n1 ++ n2).
  eapply (@written_map _ _ _ _ _ _ _ _ _ _ _ (fun _ => tt)); [apply (w_seq H1 H2)| |].
  - intros [[] []] _. cbn. auto.
  - intros [] _. exists (tt, tt). auto.
Qed.
Lemma konst_octets c x : konst (octets (c :: x)) (c :: x).
Proof.
  unfold octets. change (c :: x) with ([c] ++ x). generalize (konst_octet c). generalize (octet c), [c].
  induction x as [|d x IH]; intros y w H; [now rewrite app_nil_r|]. cbn [fold_left].
  replace (w ++ d :: x) with ((w ++ [d]) ++ x) by (now rewrite <- app_assoc). apply IH. apply konst_seq; [exact H|apply konst_octet].
Qed.
Lemma konst_seal n p x w : not_forced x = true -> konst x w -> konst (seal n p x) w.
Proof.
  intros NF [ns H]. exists (unskip (collapse ns)). apply (@w_seal rec_rules pf unit n p x (fun _ => True) (fun _ => w) (fun _ => collapse ns) (fun _ => []) NF).
  intros u v cs. rewrite M_V. split.
  - intros [m [X ->]]. apply H in X. destruct X as [a [_ [-> [-> P]]]]. exists a. auto.
  - intros [a [_ [-> [-> P]]]]. exists ns. split; [|reflexivity]. apply H. exists a. auto.
Qed.
Lemma wa_skip {T} x (Q : T -> Prop) f g h : written (V x) Q f g h -> written (A (skip x)) Q f (fun _ => []) h.
Proof.
  intro H. destruct (eph1 (skip x)) eqn:E; [apply wa_eph; [exact E|]; eapply w_skip; exact H|].
  apply (@wa_node rec_rules pf T (skip x) Q f (fun _ => VSkip) h E). apply w_M. cbn [unskip is_vskip]. eapply w_skip; exact H.
Qed.
Lemma skip_konst x w : konst x w -> written (A (skip x)) (fun _ : unit => True) (fun _ => w) (fun _ => []) (fun _ => []).
Proof. intros [ns H]. eapply wa_skip. exact H. Qed.

Lemma wa_seq {T U} x y (Q1 : T -> Prop) f1 g1 h1 (Q2 : U -> Prop) f2 g2 h2 :
  written (A x) Q1 f1 g1 h1 -> written (A y) Q2 f2 g2 h2 ->
  written (A (seq2 x y)) (fun p => Q1 (fst p) /\ Q2 (snd p)) (fun p => f1 (fst p) ++ f2 (snd p)) (fun p => g1 (fst p) ++ g2 (snd p))
          (fun p => h1 (fst p) ++ h2 (snd p)).
Proof. intros H1 H2. apply wa_eph; [reflexivity|now apply w_seq]. Qed.
Lemma wa_val {T} x (Q : T -> Prop) f (v : T -> val) h : written (V x) Q f (fun a => unskip (v a)) h -> written (A x) Q f (fun a => unskip (v a)) h.
Proof.
  intro H. destruct (eph1 x) eqn:E; [now apply wa_eph|]. apply wa_node; [exact E|]. now apply w_M.
Qed.
Lemma wa_one {T} x (Q : T -> Prop) f (v : T -> val) h : (forall a, v a <> VSkip) ->
  written (V x) Q f (fun a => [v a]) h -> written (A x) Q f (fun a => [v a]) h.
Proof.
  intros N H. assert (E : forall a, unskip (v a) = [v a]) by (intro a; specialize (N a); destruct (v a); congruence || reflexivity).
  eapply written_ext; [apply (@wa_val T x Q f v h); eapply written_ext; [exact H|..]| | | |]; try tauto; auto; intros a _; cbn beta; now rewrite ?E.
Qed.
Lemma wa_int {T} x (Q : T -> Prop) f (v : T -> Z) h : written (V x) Q f (fun a => [VInt (v a)]) h -> written (A x) Q f (fun a => [VInt (v a)]) h.
Proof. intro H. exact (@wa_one T x Q f (fun a => VInt (v a)) h ltac:(discriminate) H). Qed.

Lemma w_of_wa {T} x (Q : T -> Prop) f g h : eph1 x = true -> written (A x) Q f g h -> written (V x) Q f g h.
Proof. intros E H w ns cs. rewrite <- (@A_eph rec_rules pf _ E). apply H. Qed.

(** Skipped fixed strings around a part of a product. *)
Lemma seq_skip {T} x y w (Q : T -> Prop) f g h : written (A x) Q f g h -> konst y w ->
  written (A (seq2 x (skip y))) Q (fun a => f a ++ w) g h.
Proof.
  intros H K. apply wa_eph; [reflexivity|].
  eapply (@written_map _ _ _ _ _ _ _ _ _ _ _ fst); [apply (w_seq H (skip_konst K))| |].
  - intros [a []] [q _]. cbn. rewrite !app_nil_r. auto.
  - intros a q. exists (a, tt). auto.
Qed.
Lemma skip_seq {T} x y w (Q : T -> Prop) f g h : written (A x) Q f g h -> konst y w ->
  written (V (seq2 (skip y) x)) Q (fun a => w ++ f a) g h.
Proof.
  intros H K. eapply (@written_map _ _ _ _ _ _ _ _ _ _ _ snd); [apply (w_seq (skip_konst K) H)| |].
  - intros [[] a] [_ q]. cbn. auto.
  - intros a q. exists (tt, a). auto.
Qed.

(** ** Tables of names *)

Definition name_table (x : symbol) (l : list (str * Z)) : Prop :=
  written (V x) (fun e => In e l) fst (fun e => [VInt (snd e)]) (fun _ => []).

Lemma table_one x w z : konst x w -> name_table (wrap (FSubst (VInt z)) x) [(w, z)].
Proof.
  intros [ns H]. eapply (@written_map _ _ _ _ _ _ _ _ _ _ _ (fun _ => (w, z))); [apply (@w_subst rec_rules pf _ (VInt z) _ _ _ _ _ ltac:(discriminate) H)| |].
  - intros [] _. cbn. auto.
  - intros e [<-|[]]. exists tt. auto.
Qed.
Lemma table_alt x y l l' : name_table x l -> name_table y l' -> name_table (alt x y) (l ++ l').
Proof.
  intros H1 H2. eapply (@written_map _ _ _ _ _ _ _ _ _ _ _ (fun p => match p with inl a => a | inr b => b end)); [apply (w_alt H1 H2)| |].
  - intros [a|b] q; rewrite in_app_iff; auto.
  - intros e I. apply in_app_iff in I. destruct I as [I|I]; [exists (inl e)|exists (inr e)]; auto.
Qed.

Definition numbered (start : Z) (l : list str) : list (str * Z) := combine l (map (fun i => (start + Z.of_nat i)%Z) (seq 0 (List.length l))).

(** A name by its number. *)
Lemma numbered_table x z l : (0 <= z)%Z -> name_table x (numbered z l) ->
  written (V x) (fun k => (Z.to_N z <= k < Z.to_N z + N.of_nat (List.length l))%N) (fun k => nth (N.to_nat (k - Z.to_N z)) l [])
          (fun k => [VInt (Z.of_N k)]) (fun _ => []).
Proof.
  intros Z0 H. eapply (@written_map _ _ _ _ _ _ _ _ _ _ _ (fun e => Z.to_N (snd e))); [exact H| |].
  - intros [w k] I. unfold numbered in I. cbn [fst snd]. apply (In_nth _ _ ([], 0%Z)) in I. destruct I as [n [L E]].
    rewrite combine_length, map_length, seq_length, Nat.min_id in L. rewrite combine_nth in E by (now rewrite map_length, seq_length).
    injection E as <- E2. rewrite (@nth_indep _ _ n 0%Z (z + Z.of_nat 0)%Z) in E2 by (rewrite map_length, seq_length; exact L).
    rewrite (map_nth (fun i => (z + Z.of_nat i)%Z)), seq_nth in E2 by exact L. cbn in E2. subst k. repeat split; try lia.
    + f_equal. lia.
    + f_equal. f_equal. lia.
  - intros k R. exists (nth (N.to_nat (k - Z.to_N z)) l [], Z.of_N k). cbn [snd]. split; [|lia]. unfold numbered.
    set (n := N.to_nat (k - Z.to_N z)). replace (Z.of_N k) with ((fun i => (z + Z.of_nat i)%Z) n) by (cbn; lia).
    replace ((fun i => (z + Z.of_nat i)%Z) n) with (nth n (map (fun i => (z + Z.of_nat i)%Z) (seq 0 (List.length l))) (z + Z.of_nat 0)%Z).
    + rewrite <- combine_nth by (now rewrite map_length, seq_length). apply nth_In.
      rewrite combine_length, map_length, seq_length, Nat.min_id. lia.
    + rewrite (map_nth (fun i => (z + Z.of_nat i)%Z)), seq_nth by lia. reflexivity.
Qed.

(** The parts of a written product: from [V] of an unsealed symbol to [A] and [V] of a sealed one. *)
Lemma seal_int {T} n p x (Q : T -> Prop) f (v : T -> Z) h : not_forced x = true ->
  written (V x) Q f (fun a => [VInt (v a)]) h ->
  written (V (seal n p x)) Q f (fun a => [VInt (v a)]) h /\ written (A (seal n p x)) Q f (fun a => [VInt (v a)]) h.
Proof.
  intros NF H. pose proof (@w_M rec_rules pf T x Q f (fun a => VInt (v a)) h H) as HM.
  split; [exact (@w_seal rec_rules pf T n p x Q f (fun a => VInt (v a)) h NF HM)|exact (@wa_seal rec_rules pf T n p x Q f (fun a => VInt (v a)) h NF HM)].
Qed.

Definition octet3 a b c : konst (seq2 (seq2 (octet a) (octet b)) (octet c)) [a; b; c] :=
  konst_seq (konst_seq (konst_octet a) (konst_octet b)) (konst_octet c).

Ltac table :=
  repeat (match goal with |- name_table (alt ?x ?y) ?l => eapply table_alt | |- name_table (wrap _ _) _ => apply table_one end);
  lazymatch goal with |- konst (octets (?c :: ?x)) _ => exact (@konst_octets c x) | _ => apply octet3 end.

Lemma day_name_w : written (A day_name) (fun k => (k < 7)%N) (fun k => nth (N.to_nat k) weekdays []) (fun k => [VInt (Z.of_N k)]) (fun _ => []).
Proof.
  eapply written_ext; [refine (proj2 (@seal_int _ (s "day-name") true _ _ _ _ _ _ (@numbered_table _ 0 weekdays _ _))); [reflexivity|lia|]| | | |].
  { change (numbered 0 weekdays) with ([(s "Mon", 0%Z)] ++ [(s "Tue", 1%Z)] ++ [(s "Wed", 2%Z)] ++ [(s "Thu", 3%Z)] ++ [(s "Fri", 4%Z)] ++ [(s "Sat", 5%Z)] ++ [(s "Sun", 6%Z)])%list.
       rewrite !app_assoc. table. }
  - cbn. intro k. lia.
  - intros k _. cbn. now rewrite N.sub_0_r.
  - reflexivity.
  - reflexivity.
Qed.

Lemma day_name_l_w : written (A day_name_l) (fun k => (k < 7)%N) (fun k => nth (N.to_nat k) long_weekdays []) (fun k => [VInt (Z.of_N k)]) (fun _ => []).
Proof.
  eapply written_ext; [refine (proj2 (@seal_int _ (s "day-name-l") true _ _ _ _ _ _ (@numbered_table _ 0 long_weekdays _ _))); [reflexivity|lia|]| | | |].
  { change (numbered 0 long_weekdays) with ([(s "Monday", 0%Z)] ++ [(s "Tuesday", 1%Z)] ++ [(s "Wednesday", 2%Z)] ++ [(s "Thursday", 3%Z)] ++ [(s "Friday", 4%Z)] ++ [(s "Saturday", 5%Z)] ++ [(s "Sunday", 6%Z)])%list.
       rewrite !app_assoc. table. }
  - cbn. intro k. lia.
  - intros k _. cbn. now rewrite N.sub_0_r.
  - reflexivity.
  - reflexivity.
Qed.

Lemma month_w : written (A month) (fun k => (1 <= k <= 12)%N) (fun k => nth (N.to_nat (k - 1)) months []) (fun k => [VInt (Z.of_N k)]) (fun _ => []).
Proof.
  eapply written_ext; [refine (proj2 (@seal_int _ (s "month") true _ _ _ _ _ _ (@numbered_table _ 1 months _ _))); [reflexivity|lia|]| | | |].
  { change (numbered 1 months) with ([(s "Jan", 1%Z)] ++ [(s "Feb", 2%Z)] ++ [(s "Mar", 3%Z)] ++ [(s "Apr", 4%Z)] ++ [(s "May", 5%Z)] ++ [(s "Jun", 6%Z)] ++
         [(s "Jul", 7%Z)] ++ [(s "Aug", 8%Z)] ++ [(s "Sep", 9%Z)] ++ [(s "Oct", 10%Z)] ++ [(s "Nov", 11%Z)] ++ [(s "Dec", 12%Z)])%list.
       rewrite !app_assoc. table. }
  - cbn. intro k. lia.
  - reflexivity.
  - reflexivity.
  - reflexivity.
Qed.

(** ** Numbers of fixed length *)

Lemma digit_split c : is_digit c = true -> exists n, (n < 10)%N /\ c = (48 + n)%N.
Proof. unfold is_digit. intro H. exists (c - 48)%N. lia. Qed.
Lemma digit_ok n : (n < 10)%N -> is_digit (48 + n) = true.
Proof. unfold is_digit. lia. Qed.

Lemma decimal_two n : decimal (two n) = (n / 10 * 10 + n mod 10)%N.
Proof. unfold decimal, two. cbn [fold_left]. lia. Qed.
Lemma two_value n : decimal (two n) = n.
Proof. rewrite decimal_two. pose proof (N.div_mod' n 10). lia. Qed.
Lemma two_digits n : (n < 100)%N -> List.length (two n) = 2 /\ HttpText.all is_digit (two n).
Proof.
  intro H. split; [reflexivity|]. unfold two. repeat constructor; apply digit_ok.
  - apply N.div_lt_upper_bound; lia.
  - apply N.mod_lt. lia.
Qed.
Lemma two_of w : List.length w = 2 -> HttpText.all is_digit w -> (decimal w < 100)%N /\ w = two (decimal w).
Proof.
  destruct w as [|a [|b [|]]]; try discriminate. intros _ H. inversion H as [|? ? Ha H']; subst. inversion H' as [|? ? Hb _]; subst.
  apply digit_split in Ha, Hb. destruct Ha as [m [Lm ->]], Hb as [n [Ln ->]].
  assert (E : decimal [48 + m; 48 + n]%N = (m * 10 + n)%N) by (unfold decimal; cbn [fold_left]; lia).
  rewrite E. split; [lia|]. unfold two. rewrite N.div_add_l by lia. rewrite (N.div_small n 10) by exact Ln.
  replace ((m * 10 + n) mod 10)%N with n; [f_equal; lia|]. rewrite N.add_comm, N.mod_add by lia. now rewrite N.mod_small.
Qed.
Lemma decimal_app u v : decimal (u ++ v) = (decimal u * 10 ^ N.of_nat (List.length v) + decimal v)%N.
Proof.
  unfold decimal. rewrite fold_left_app. generalize (fold_left (fun n c => 10 * n + (c - 48))%N u 0%N). intro a.
  assert (X : forall v a b, fold_left (fun n c => 10 * n + (c - 48))%N v (a + b)%N = (a * 10 ^ N.of_nat (List.length v) + fold_left (fun n c => 10 * n + (c - 48))%N v b)%N).
  { clear. induction v as [|c v IH]; intros a b; [cbn; lia|]. cbn [fold_left List.length].
    replace (10 * (a + b) + (c - 48))%N with (10 * a + (10 * b + (c - 48)))%N by lia. rewrite IH.
    rewrite Nat2N.inj_succ, N.pow_succ_r'. lia. }
  rewrite <- (N.add_0_r a) at 1. apply X.
Qed.
Lemma four_value n : decimal (four n) = n.
Proof.
  unfold four. rewrite decimal_app, !two_value. change (N.of_nat (List.length (two (n mod 100)))) with 2%N. change (10 ^ 2)%N with 100%N.
  pose proof (N.div_mod' n 100). lia.
Qed.
Lemma all_app p u v : HttpText.all p (u ++ v) <-> HttpText.all p u /\ HttpText.all p v.
Proof. unfold HttpText.all. apply Forall_app. Qed.
Lemma four_digits n : (n < 10000)%N -> List.length (four n) = 4 /\ HttpText.all is_digit (four n).
Proof.
  intro H. unfold four. split; [reflexivity|]. apply all_app. split; apply two_digits.
  - apply N.div_lt_upper_bound; lia.
  - apply N.mod_lt. lia.
Qed.
Lemma four_of w : List.length w = 4 -> HttpText.all is_digit w -> (decimal w < 10000)%N /\ w = four (decimal w).
Proof.
  intros L H. destruct w as [|a [|b w]]; try discriminate L. change (a :: b :: w) with ([a; b] ++ w) in *. apply all_app in H. destruct H as [H1 H2].
  destruct (@two_of [a; b] eq_refl H1) as [L1 E1]. injection L as L. destruct (two_of L H2) as [L2 E2].
  rewrite decimal_app, L. change (10 ^ N.of_nat 2)%N with 100%N. split; [lia|]. unfold four.
  rewrite N.div_add_l by lia. rewrite (N.div_small (decimal w)) by exact L2. rewrite N.add_0_r.
  replace ((decimal [a; b] * 100 + decimal w) mod 100)%N with (decimal w); [now rewrite <- E1, <- E2|].
  rewrite N.add_comm, N.mod_add by lia. now rewrite N.mod_small.
Qed.

Lemma all1_len k w : 1 <= k -> List.length w = k /\ HttpText.all is_digit w -> all1 is_digit w.
Proof. intros K [L H]. split; [|exact H]. intros ->. cbn in L. lia. Qed.

Lemma digits_textual k : 1 <= k -> textual (string_times_ k k DIGIT) (fun w => List.length w = k /\ HttpText.all is_digit w).
Proof. intro K. apply (@textual_times_class nested DIGIT (Some (s "DIGIT")) (bits_of DIGIT)); [reflexivity|apply digit_bits|exact K]. Qed.

Lemma int_w x L : textual x L -> (forall w, L w -> all1 is_digit w) ->
  written (V (wrap FInt x)) L (fun w => w) (fun w => [VInt (Z.of_N (decimal w))]) (fun _ => []).
Proof.
  intros T D w ns cs. rewrite (V_int T D). split.
  - intros [H [-> ->]]. exists w. auto.
  - intros [a [H [-> [-> P]]]]. apply Permutation_nil in P. auto.
Qed.

Lemma int2_w : written (V (wrap FInt (string_times_ 2 2 DIGIT))) (fun n => (n < 100)%N) two (fun n => [VInt (Z.of_N n)]) (fun _ => []).
Proof.
  eapply (@written_map _ _ _ _ _ _ _ _ _ _ _ decimal); [apply int_w; [apply (@digits_textual 2); lia|intros w H; apply (@all1_len 2); [lia|exact H]]| |].
  - intros w [L H]. destruct (two_of L H) as [B E]. auto.
  - intros n B. exists (two n). split; [now apply two_digits|apply two_value].
Qed.
Lemma int4_w : written (V (wrap FInt (string_times_ 4 4 DIGIT))) (fun n => (n < 10000)%N) four (fun n => [VInt (Z.of_N n)]) (fun _ => []).
Proof.
  eapply (@written_map _ _ _ _ _ _ _ _ _ _ _ decimal); [apply int_w; [apply (@digits_textual 4); lia|intros w H; apply (@all1_len 4); [lia|exact H]]| |].
  - intros w [L H]. destruct (four_of L H) as [B E]. auto.
  - intros n B. exists (four n). split; [now apply four_digits|apply four_value].
Qed.

Lemma day_w : written (A day) (fun n => (n < 100)%N) two (fun n => [VInt (Z.of_N n)]) (fun _ => []).
Proof. refine (proj2 (@seal_int _ _ _ _ _ _ _ _ _ int2_w)); reflexivity. Qed.
Lemma hour_w : written (A hour) (fun n => (n < 100)%N) two (fun n => [VInt (Z.of_N n)]) (fun _ => []).
Proof. refine (proj2 (@seal_int _ _ _ _ _ _ _ _ _ int2_w)); reflexivity. Qed.
Lemma minute_w : written (A minute) (fun n => (n < 100)%N) two (fun n => [VInt (Z.of_N n)]) (fun _ => []).
Proof. refine (proj2 (@seal_int _ _ _ _ _ _ _ _ _ int2_w)); reflexivity. Qed.
Lemma second_w : written (A second) (fun n => (n < 100)%N) two (fun n => [VInt (Z.of_N n)]) (fun _ => []).
Proof. refine (proj2 (@seal_int _ _ _ _ _ _ _ _ _ int2_w)); reflexivity. Qed.
Lemma year_w : written (A year) (fun n => (n < 10000)%N) four (fun n => [VInt (Z.of_N n)]) (fun _ => []).
Proof. refine (proj2 (@seal_int _ _ _ _ _ _ _ _ _ int4_w)); reflexivity. Qed.

Lemma year19_w : written (V (wrap (FPy PYear19) (string_times_ 2 2 DIGIT))) (fun n => (1900 <= n < 2000)%N) (fun n => two (n mod 100)) (fun n => [VInt (Z.of_N n)]) (fun _ => []).
Proof.
  eapply (@written_map _ _ _ _ _ _ _ _ _ _ _ (fun w => 1900 + decimal w)%N).
  - eapply (w_wrap1 (r:=fun w => VInt (Z.of_N (1900 + decimal w)))); [apply w_text; apply (@digits_textual 2); lia|].
    intros w [L H]. split; [|discriminate]. cbn [call_func pyfun]. f_equal. rewrite int_of_spec.
    + rewrite decimal_app, L. do 2 f_equal.
    + split; [discriminate|]. apply all_app. split; [repeat constructor|exact H].
  - intros w [L H]. destruct (two_of L H) as [B E]. cbn beta. split; [lia|]. split; [|auto].
    replace ((1900 + decimal w) mod 100)%N with (decimal w); [now rewrite <- E|].
    rewrite N.add_comm. change 1900%N with (19 * 100)%N. rewrite N.mod_add by lia. now rewrite N.mod_small.
  - intros n B. assert (n mod 100 < 100)%N by (apply N.mod_lt; lia). exists (two (n mod 100)). split; [now apply two_digits|].
    rewrite two_value. pose proof (N.div_mod' n 100). assert (n / 100 = 19)%N; [|lia]. symmetry. apply N.div_unique with (n - 1900)%N; lia.
Qed.

(** ** Dates and times *)

Lemma sp_konst : konst SP [32%N].
Proof.
  apply konst_text. eapply textual_ext; [apply (@textual_class nested SP (Some (s "SP")) (bits_of SP) (fun c => N.eqb c 32)); [reflexivity|apply testbit_octet]|].
  intro w. split; [intros [c [-> E]]; apply N.eqb_eq in E; now subst|intros ->; exists 32%N; auto].
Qed.

Lemma to_date_not_skip d m y : fst (to_date d m y) <> VSkip.
Proof. unfold to_date. destruct (valid_date y m d); discriminate. Qed.
Lemma to_time_not_skip h m x : fst (to_time h m x) <> VSkip.
Proof. unfold to_time. destruct (valid_time h m x); discriminate. Qed.
Lemma unskip_one v : v <> VSkip -> unskip v = [v].
Proof. destruct v; congruence || reflexivity. Qed.

Notation z := Z.of_N.
Definition dmy : Type := N * N * N.
Definition fdate (p : dmy) : val * list vcomplaint := let '(d, m, y) := p in to_date (z d) (z m) (z y).
Definition ftime (p : N * N * N) : val * list vcomplaint := let '(h, m, x) := p in to_time (z h) (z m) (z x).
Lemma fdate_not_skip p : fst (fdate p) <> VSkip.
Proof. destruct p as [[? ?] ?]. apply to_date_not_skip. Qed.
Lemma ftime_not_skip p : fst (ftime p) <> VSkip.
Proof. destruct p as [[? ?] ?]. apply to_time_not_skip. Qed.

Lemma seal_fun {T} n p F x (Q : T -> Prop) f g (r : T -> val * list vcomplaint) :
  (forall a, fst (r a) <> VSkip) -> is_class F = false -> not_forced (wrap F x) = true ->
  written (V x) Q f g (fun _ => []) -> (forall a, Q a -> call_func pf F (g a) = r a) ->
  written (A (seal n p (wrap F x))) Q f (fun a => [fst (r a)]) (fun a => snd (r a)).
Proof.
  intros NS C NF H E. eapply written_ext.
  - apply (@wa_seal rec_rules pf T n p (wrap F x) Q f (fun a => fst (r a)) (fun a => [] ++ snd (r a)) NF). apply w_M.
    eapply w_wrap; [exact H|]. intros a q. rewrite (E a q). now destruct (r a).
  - tauto.
  - reflexivity.
  - intros a _. now apply unskip_one.
  - reflexivity.
Qed.

Lemma date1_w : written (A date1) (fun p : dmy => let '(d, m, y) := p in (d < 100 /\ 1 <= m <= 12 /\ y < 10000)%N)
  (fun p => let '(d, m, y) := p in two d ++ s " " ++ nth (N.to_nat (m - 1)) months [] ++ s " " ++ four y)
  (fun p => [fst (fdate p)]) (fun p => snd (fdate p)).
Proof.
  apply (@seal_fun _ _ _ (FPy PToDate) _ _ _ (fun p : dmy => let '(d, m, y) := p in [VInt (z d); VInt (z m); VInt (z y)])); [apply fdate_not_skip|reflexivity|reflexivity| |].
  - eapply (@written_map _ _ _ _ _ _ _ _ _ _ _ (fun p => p)); [apply (w_seq (seq_skip (wa_seq (seq_skip day_w sp_konst) month_w) sp_konst) year_w)| |].
    + intros [[d m] y] [[q1 q2] q3]. cbn [fst snd app] in *. rewrite <- !app_assoc. auto 8.
    + intros [[d m] y] [q1 [q2 q3]]. exists ((d, m), y). cbn. auto.
  - intros [[d m] y] _. reflexivity.
Qed.

Lemma date2_w : written (A date2) (fun p : dmy => let '(d, m, y) := p in (d < 100 /\ 1 <= m <= 12 /\ 1900 <= y < 2000)%N)
  (fun p => let '(d, m, y) := p in two d ++ s "-" ++ nth (N.to_nat (m - 1)) months [] ++ s "-" ++ two (y mod 100))
  (fun p => [fst (fdate p)]) (fun p => snd (fdate p)).
Proof.
  apply (@seal_fun _ _ _ (FPy PToDate) _ _ _ (fun p : dmy => let '(d, m, y) := p in [VInt (z d); VInt (z m); VInt (z y)])); [apply fdate_not_skip|reflexivity|reflexivity| |].
  - eapply (@written_map _ _ _ _ _ _ _ _ _ _ _ (fun p => p));
      [apply (w_seq (seq_skip (wa_seq (seq_skip day_w (konst_lit (x:="-") eq_refl)) month_w) (konst_lit (x:="-") eq_refl)) (wa_int year19_w))| |].
    + intros [[d m] y] [[q1 q2] q3]. cbn [fst snd app] in *. rewrite <- !app_assoc. auto 8.
    + intros [[d m] y] [q1 [q2 q3]]. exists ((d, m), y). cbn. auto.
  - intros [[d m] y] _. reflexivity.
Qed.

Lemma time_w : written (A time_of_day) (fun p : N * N * N => let '(h, m, x) := p in (h < 100 /\ m < 100 /\ x < 100)%N)
  (fun p => let '(h, m, x) := p in two h ++ s ":" ++ two m ++ s ":" ++ two x)
  (fun p => [fst (ftime p)]) (fun p => snd (ftime p)).
Proof.
  apply (@seal_fun _ _ _ (FPy PToTime) _ _ _ (fun p : N * N * N => let '(d, m, y) := p in [VInt (z d); VInt (z m); VInt (z y)])); [apply ftime_not_skip|reflexivity|reflexivity| |].
  - eapply (@written_map _ _ _ _ _ _ _ _ _ _ _ (fun p => p));
      [apply (w_seq (seq_skip (wa_seq (seq_skip hour_w (konst_lit (x:=":") eq_refl)) minute_w) (konst_lit (x:=":") eq_refl)) second_w)| |].
    + intros [[d m] y] [[q1 q2] q3]. cbn [fst snd app] in *. rewrite <- !app_assoc. auto 8.
    + intros [[d m] y] [q1 [q2 q3]]. exists ((d, m), y). cbn. auto.
  - intros [[d m] y] _. reflexivity.
Qed.

Lemma gmt_konst : konst GMT (s "GMT").
Proof. apply konst_seal; [reflexivity|]. apply octet3. Qed.
Lemma sp_gmt_konst : konst (seq2 SP GMT) (s " GMT").
Proof. exact (konst_seq sp_konst gmt_konst). Qed.
Lemma comma_sp_konst : konst (seq2 (lit ",") SP) (s ", ").
Proof. exact (konst_seq (konst_lit (x:=",") eq_refl) sp_konst). Qed.

(** The value of a date and its complaints, before the weekday is checked. *)
Definition dt_value (f : fields) : val :=
  to_datetime (VInt (z (f_weekday f))) (fst (to_date (z (f_day f)) (z (f_month f)) (z (f_year f))))
    (fst (to_time (z (f_hour f)) (z (f_minute f)) (z (f_second f)))).
Definition dt_notes (f : fields) : list vcomplaint :=
  snd (to_date (z (f_day f)) (z (f_month f)) (z (f_year f))) ++ snd (to_time (z (f_hour f)) (z (f_minute f)) (z (f_second f))).

Ltac destruct_valid :=
  match goal with |- context [valid_date ?a ?b ?c] => destruct (valid_date a b c) end;
  match goal with |- context [valid_time ?a ?b ?c] => destruct (valid_time a b c) end.
Lemma dt_value_not_skip f : dt_value f <> VSkip.
Proof. unfold dt_value, to_datetime, to_date, to_time. destruct_valid; discriminate. Qed.

(** A symbol wrapped and named. *)
Lemma seal_wrap {T} n p F x (Q : T -> Prop) f g h (r : T -> val) k :
  not_forced (wrap F x) = true -> (forall a, r a <> VSkip) ->
  written (V x) Q f g h -> (forall a, Q a -> call_func pf F (g a) = (r a, k a)) ->
  written (V (seal n p (wrap F x))) Q f (fun a => [r a]) (fun a => h a ++ k a).
Proof.
  intros NF N H E. eapply written_ext.
  - apply (@w_seal rec_rules pf T n p (wrap F x) Q f r (fun a => h a ++ k a) NF). apply w_M. apply (w_wrap H E).
  - tauto.
  - reflexivity.
  - intros a _. now apply unskip_one.
  - reflexivity.
Qed.

Lemma IMF_fixdate_w : written (V IMF_fixdate) in_range imf_fixdate (fun f => [dt_value f]) dt_notes.
Proof.
  eapply (@written_map _ _ _ _ _ _ _ _ _ _ _ (fun p => let '(k, (d, m, y), (h, mi, x)) := p in Fields k d m y h mi x)).
  - eapply (@seal_wrap (N * dmy * (N * N * N)) _ _ (FPy PToDatetime) _ _ _ _ _
      (fun p => let '(k, (d, m, y), (h, mi, x)) := p in dt_value (Fields k d m y h mi x)) (fun _ => [])); [reflexivity| |..].
    + intros [[k [[d m] y]] [[h mi] x]]. apply dt_value_not_skip.
    + pose proof (wa_seq (seq_skip day_name_w comma_sp_konst) date1_w) as H1.
      pose proof (wa_seq (seq_skip H1 sp_konst) time_w) as H2.
      pose proof (seq_skip H2 sp_gmt_konst) as H3. unfold IMF_fixdate. cbn beta in H3.
      apply w_of_wa; [reflexivity|exact H3].
    + intros [[k [[d m] y]] [[h mi] x]] _. cbn -[to_date to_time to_datetime]. reflexivity.
  - intros [[k [[d m] y]] [[h mi] x]] [[q1 [q2 [q3 q4]]] [q5 [q6 q7]]]. cbn [fst snd] in *. split; [unfold in_range; cbn; tauto|].
    split; [|split; [reflexivity|]].
    + unfold imf_fixdate, time_text, weekday_text, month_text. cbn [f_weekday f_day f_month f_year f_hour f_minute f_second].
      now rewrite <- !app_assoc.
    + cbn. unfold dt_notes. cbn [f_day f_month f_year f_hour f_minute f_second]. now rewrite !app_nil_r.
  - intros [k d m y h mi x] [q1 [q2 [q3 [q4 [q5 [q6 q7]]]]]]. exists (k, (d, m, y), (h, mi, x)). cbn in *. tauto.
Qed.

Lemma rfc850_w : written (V rfc850_date) (fun f => in_range f /\ (1900 <= f_year f < 2000)%N) rfc850 (fun f => [dt_value f]) dt_notes.
Proof.
  eapply (@written_map _ _ _ _ _ _ _ _ _ _ _ (fun p => let '(k, (d, m, y), (h, mi, x)) := p in Fields k d m y h mi x)).
  - eapply (@seal_wrap (N * dmy * (N * N * N)) _ _ (FPy PToDatetime) _ _ _ _ _
      (fun p => let '(k, (d, m, y), (h, mi, x)) := p in dt_value (Fields k d m y h mi x)) (fun _ => [])); [reflexivity| |..].
    + intros [[k [[d m] y]] [[h mi] x]]. apply dt_value_not_skip.
    + pose proof (wa_seq (seq_skip day_name_l_w comma_sp_konst) date2_w) as H1.
      pose proof (wa_seq (seq_skip H1 sp_konst) time_w) as H2.
      pose proof (seq_skip H2 sp_gmt_konst) as H3. cbn beta in H3.
      apply w_of_wa; [reflexivity|exact H3].
    + intros [[k [[d m] y]] [[h mi] x]] _. cbn -[to_date to_time to_datetime]. reflexivity.
  - intros [[k [[d m] y]] [[h mi] x]] [[q1 [q2 [q3 q4]]] [q5 [q6 q7]]]. cbn [fst snd] in *. split; [unfold in_range; cbn; lia|].
    split; [|split; [reflexivity|]].
    + unfold rfc850, time_text, long_weekday_text, month_text. cbn [f_weekday f_day f_month f_year f_hour f_minute f_second].
      now rewrite <- !app_assoc.
    + cbn. unfold dt_notes. cbn [f_day f_month f_year f_hour f_minute f_second]. now rewrite !app_nil_r.
  - intros [k d m y h mi x] [[q1 [q2 [q3 [q4 [q5 [q6 q7]]]]]] q8]. exists (k, (d, m, y), (h, mi, x)). cbn in *. tauto.
Qed.

(** The day of the month in [asctime]: two digits, or a space and one. *)
Definition day_text (p : N + N) : str := match p with inl d => two d | inr d => s " " ++ one d end.
Definition day_of (p : N + N) : N := match p with inl d => d | inr d => d end.

Lemma digit1_textual : textual DIGIT (fun w => exists c, w = [c] /\ is_digit c = true).
Proof. apply (@textual_class nested DIGIT (Some (s "DIGIT")) (bits_of DIGIT)); [reflexivity|apply digit_bits]. Qed.

Lemma int1_w : written (V (wrap FInt (seq2 (skip SP) DIGIT))) (fun n => (n < 10)%N) (fun n => s " " ++ one n) (fun n => [VInt (z n)]) (fun _ => []).
Proof.
  eapply (@written_map _ _ _ _ _ _ _ _ _ _ _ decimal).
  - eapply (w_wrap1 (r:=fun w => VInt (z (decimal w)))); [apply (skip_seq (wa_text digit1_textual) sp_konst)|].
    intros w [c [-> D]]. split; [|discriminate]. cbn [call_func]. f_equal. apply int_of_spec. split; [discriminate|]. now constructor.
  - intros w [c [-> D]]. cbn beta. apply digit_split in D. destruct D as [n [L ->]].
    assert (E : decimal [(48 + n)%N] = n) by (unfold decimal; cbn [fold_left]; lia). rewrite E. auto.
  - intros n L. exists (one n). split; [exists (48 + n)%N; split; [reflexivity|now apply digit_ok]|]. unfold decimal, one. cbn [fold_left]. lia.
Qed.

Lemma date3_w : written (A date3) (fun p : N * (N + N) => (1 <= fst p <= 12)%N /\ match snd p with inl d => (d < 100)%N | inr d => (d < 10)%N end)
  (fun p => nth (N.to_nat (fst p - 1)) months [] ++ s " " ++ day_text (snd p))
  (fun p => [VTuple [VInt (z (fst p)); VInt (z (day_of (snd p)))]]) (fun _ => []).
Proof.
  apply (@wa_seal rec_rules pf _ _ _ _ _ _ (fun p : N * (N + N) => VTuple [VInt (z (fst p)); VInt (z (day_of (snd p)))]) _); [reflexivity|].
  assert (D : written (A (alt (wrap FInt (string_times_ 2 2 DIGIT)) (wrap FInt (seq2 (skip SP) DIGIT))))
    (fun p : N + N => match p with inl d => (d < 100)%N | inr d => (d < 10)%N end) day_text (fun p => [VInt (z (day_of p))]) (fun _ => [])).
  { apply wa_int. eapply written_ext; [apply (w_alt int2_w int1_w)| | | |]; cbn beta; try tauto; intros [d|d] _; reflexivity. }
  pose proof (w_seq (seq_skip month_w sp_konst) D) as H.
  intros w v cs. rewrite M_V. split.
  - intros [ns [X ->]]. apply H in X. destruct X as [[m d] [q [-> [-> P]]]]. exists (m, d). cbn [fst snd] in *. rewrite <- !app_assoc. auto.
  - intros [[m d] [q [-> [-> P]]]]. cbn [fst snd] in *. exists [VInt (z m); VInt (z (day_of d))]. split; [|reflexivity]. apply H. exists (m, d).
    cbn [fst snd]. rewrite <- !app_assoc. auto.
Qed.

Definition asctime_form (p : fields * bool) : str := let (f, b) := p in asctime (if b then two (f_day f) else s " " ++ one (f_day f)) f.

Lemma asctime_w : written (V asctime_date) (fun p => in_range (fst p) /\ (snd p = true \/ (f_day (fst p) < 10)%N)) asctime_form
  (fun p => [dt_value (fst p)]) (fun p => dt_notes (fst p)).
Proof.
  eapply (@written_ext (fields * bool) _ (fun p => in_range (fst p) /\ (snd p = true \/ (f_day (fst p) < 10)%N)) _ asctime_form _ (fun p => [dt_value (fst p)]) _
    (fun p => snd (to_time (z (f_hour (fst p))) (z (f_minute (fst p))) (z (f_second (fst p)))) ++
        snd (to_date (z (f_day (fst p))) (z (f_month (fst p))) (z (f_year (fst p)))))); [eapply (@written_map _ _ _ _ _ _ _ _ _ _ _
    (fun p : N * (N * (N + N)) * (N * N * N) * N => let '(k, (m, d), (h, mi, x), y) := p in (Fields k (day_of d) m y h mi x, match d with inl _ => true | inr _ => false end)))|..].
  - eapply (@seal_wrap (N * (N * (N + N)) * (N * N * N) * N) _ _ (FPy PFromAsctime) _ _ _ _ _
      (fun p => let '(k, (m, d), (h, mi, x), y) := p in dt_value (Fields k (day_of d) m y h mi x))
      (fun p => let '(k, (m, d), (h, mi, x), y) := p in snd (to_date (z (day_of d)) (z m) (z y)))); [reflexivity| |..].
    + intros [[[k [m d]] [[h mi] x]] y]. apply dt_value_not_skip.
    + pose proof (wa_seq (seq_skip day_name_w sp_konst) date3_w) as H1.
      pose proof (wa_seq (seq_skip H1 sp_konst) time_w) as H2.
      pose proof (wa_seq (seq_skip H2 sp_konst) year_w) as H3. cbn beta in H3.
      apply w_of_wa; [reflexivity|exact H3].
    + intros [[[k [m d]] [[h mi] x]] y] _. cbn -[to_date to_time to_datetime dt_value]. unfold dt_value.
      cbn [f_weekday f_day f_month f_year f_hour f_minute f_second]. now destruct (to_date _ _ _).
  - intros [[[k [m d]] [[h mi] x]] y] [[[q1 [q2 q3]] [q4 [q5 q6]]] q7]. cbn [fst snd] in *.
    split; [|split; [|split; [reflexivity|]]].
    + unfold in_range. destruct d as [d|d]; cbn -[N.lt N.le]; lia.
    + unfold asctime_form, asctime, time_text, weekday_text, month_text.
      cbn [f_weekday f_day f_month f_year f_hour f_minute f_second]. rewrite <- !app_assoc. destruct d as [d|d]; reflexivity.
    + cbn. now rewrite !app_nil_r.
  - intros [[k d m y h mi x] b] [[q1 [q2 [q3 [q4 [q5 [q6 q7]]]]]] q8]. cbn [fst snd] in *.
    exists (k, (m, if b then inl d else inr d), (h, mi, x), y). cbn [fst snd f_weekday f_day f_month f_year f_hour f_minute f_second] in *.
    destruct b; cbn; [tauto|]. assert (d < 10)%N by (destruct q8; [discriminate|assumption]). tauto.
  - tauto.
  - reflexivity.
  - reflexivity.
  - intros p _. apply Permutation_app_comm.
Qed.

(** All forms. *)
Inductive form := Imf | Rfc850 | Asctime (two_digits : bool).
Definition form_ok (p : fields * form) : Prop :=
  in_range (fst p) /\ match snd p with Imf => True | Rfc850 => (1900 <= f_year (fst p) < 2000)%N | Asctime b => b = true \/ (f_day (fst p) < 10)%N end.
Definition form_text (p : fields * form) : str :=
  match snd p with Imf => imf_fixdate (fst p) | Rfc850 => rfc850 (fst p) | Asctime b => asctime_form (fst p, b) end.
Definition form_notes (p : fields * form) : list vcomplaint := match snd p with Imf => [] | _ => [(1107%N, [])] end.

Lemma check_not_skip f : fst (check_day_of_week (dt_value f)) <> VSkip.
Proof.
  unfold dt_value, to_datetime, to_date, to_time. destruct_valid; try discriminate.
  cbn -[weekday pad nth_name]. destruct (_ =? _)%Z; discriminate.
Qed.

Lemma obs_date_w : written (V obs_date) (fun p => form_ok p /\ snd p <> Imf) form_text (fun p => [dt_value (fst p)])
  (fun p => dt_notes (fst p) ++ [(1107%N, [])]).
Proof.
  assert (R : written (V (wrap (FPy PObsoleteDate) rfc850_date)) (fun f => in_range f /\ (1900 <= f_year f < 2000)%N) rfc850 (fun f => unskip (dt_value f)) (fun f => dt_notes f ++ [(1107%N, [])])).
  { apply (w_wrap rfc850_w). reflexivity. }
  assert (S : written (V (wrap (FPy PObsoleteDate) asctime_date)) (fun p => in_range (fst p) /\ (snd p = true \/ (f_day (fst p) < 10)%N)) asctime_form
    (fun p => unskip (dt_value (fst p))) (fun p => dt_notes (fst p) ++ [(1107%N, [])])).
  { apply (w_wrap asctime_w). reflexivity. }
  assert (U : forall f, unskip (dt_value f) = [dt_value f]) by (intro f; apply unskip_one, dt_value_not_skip).
  eapply written_ext; [apply (@w_seal rec_rules pf _ _ _ _ (fun p => form_ok p /\ snd p <> Imf) form_text (fun p => dt_value (fst p)) (fun p => dt_notes (fst p) ++ [(1107%N, [])])); [reflexivity|]| | | |];
    try tauto; auto.
  apply w_M. eapply (@written_map _ _ _ _ _ _ _ _ _ _ _ (fun p => match p with inl f => (f, Rfc850) | inr (f, b) => (f, Asctime b) end)); [apply (w_alt R S)| |].
  - intros [f|[f b]] q; cbn in *; (split; [split; [exact q|discriminate]|]); repeat split.
  - intros [f [| |b]] [q N]; [now contradiction N|exists (inl f)|exists (inr (f, b))]; (split; [exact q|reflexivity]).
  - intros p _. apply U.
Qed.

Lemma HTTP_date_M w v cs : M HTTP_date w v cs <-> exists p, form_ok p /\ w = form_text p /\ v = fst (check_day_of_week (dt_value (fst p))) /\
  Permutation (dt_notes (fst p) ++ form_notes p ++ snd (check_day_of_week (dt_value (fst p)))) cs.
Proof.
  assert (R : written (V (wrap (FPy PCheckDayOfWeek) IMF_fixdate)) in_range imf_fixdate (fun f => unskip (fst (check_day_of_week (dt_value f))))
    (fun f => dt_notes f ++ snd (check_day_of_week (dt_value f)))).
  { apply (w_wrap IMF_fixdate_w). intros f _. cbn -[check_day_of_week dt_value]. now destruct (check_day_of_week (dt_value f)). }
  assert (S : written (V (wrap (FPy PCheckDayOfWeek) obs_date)) (fun p => form_ok p /\ snd p <> Imf) form_text
    (fun p => unskip (fst (check_day_of_week (dt_value (fst p)))))
    (fun p => (dt_notes (fst p) ++ [(1107%N, [])]) ++ snd (check_day_of_week (dt_value (fst p))))).
  { apply (w_wrap obs_date_w). intros p _. cbn -[check_day_of_week dt_value]. now destruct (check_day_of_week (dt_value (fst p))). }
  unfold HTTP_date, pivot_. rewrite M_seal by reflexivity.
  revert w v cs. apply (@w_M rec_rules pf (fields * form) _ form_ok form_text (fun p => fst (check_day_of_week (dt_value (fst p))))
    (fun p => dt_notes (fst p) ++ form_notes p ++ snd (check_day_of_week (dt_value (fst p))))).
  eapply (@written_map _ _ _ _ _ _ _ _ _ _ _ (fun p => match p with inl f => (f, Imf) | inr p => p end)); [apply (w_alt R S)| |].
  - intros [f|[f [| |b]]] q; cbn in *; [|now destruct q as [_ []]| |]; (split; [unfold form_ok in *; cbn in *; tauto|]); repeat split; unfold form_notes; cbn [snd]; now rewrite <- ?app_assoc.
  - intros [f [| |b]] q; [exists (inl f); split; [apply q|reflexivity]|exists (inr (f, Rfc850))|exists (inr (f, Asctime b))];
      (split; [split; [exact q|discriminate]|reflexivity]).
Qed.

End Dates.

(** * What a date means *)

(** [date_spec w v cs]: [w] is written in one of the three formats; the value
    is that moment if it exists; the notices tell of an impossible date, an
    impossible time, an obsolete format, a wrong day of the week. *)
Definition date_notice (f : fields) (obsolete : bool) (n : N) : Prop :=
  (n = 1222%N /\ ~ real_date f) \/ (n = 1223%N /\ ~ real_time f) \/ (n = 1107%N /\ obsolete = true) \/
  (n = 1108%N /\ real_date f /\ real_time f /\ ~ right_weekday f).
Definition moment (f : fields) : val :=
  VObj (s "datetime") (map (fun n => VInt (Z.of_N n)) [f_year f; f_month f; f_day f; f_hour f; f_minute f; f_second f]).
Definition date_spec (w : str) (v : val) (cs : list vcomplaint) : Prop :=
  exists f obsolete, in_range f /\ written_as w f obsolete /\
    (real_date f /\ real_time f -> v = moment f) /\
    (~ (real_date f /\ real_time f) -> exists x, v = VUnavailable x) /\
    NoDup (map fst cs) /\ forall n, In n (map fst cs) <-> date_notice f obsolete n.

Lemma real_date_spec f : in_range f -> valid_date (Z.of_N (f_year f)) (Z.of_N (f_month f)) (Z.of_N (f_day f)) = true <-> real_date f.
Proof. intro R. unfold real_date. apply valid_date_spec. destruct R as [_ [_ [_ [Y _]]]]. lia. Qed.
Lemma real_time_spec f : valid_time (Z.of_N (f_hour f)) (Z.of_N (f_minute f)) (Z.of_N (f_second f)) = true <-> real_time f.
Proof. unfold valid_time, real_time. lia. Qed.
Lemma right_weekday_spec f : real_date f -> (weekday (Z.of_N (f_year f)) (Z.of_N (f_month f)) (Z.of_N (f_day f)) =? Z.of_N (f_weekday f))%Z = true <-> right_weekday f.
Proof.
  intros [k C]. unfold right_weekday. rewrite Z.eqb_eq. apply calendar_spec in C. destruct C as [C _]. rewrite calendar_spec. intuition.
Qed.

Lemma form_written (f : fields) w : (exists k, form_ok (f, k) /\ w = form_text (f, k) /\ True) <-> in_range f /\ exists b, written_as w f b.
Proof.
  split.
  - intros [k [[R O] [-> _]]]. split; [exact R|]. destruct k as [| |[|]]; cbn in *.
    + exists false. now constructor.
    + exists true. now apply wa_rfc850.
    + exists true. now apply wa_asctime2.
    + exists true. apply wa_asctime1; [reflexivity|]. destruct O; [discriminate|assumption].
  - intros [R [b W]]. destruct W as [E|E Y|E|E D].
    + exists Imf. repeat split; auto; apply R.
    + exists Rfc850. repeat split; auto; try apply R; apply Y.
    + exists (Asctime true). repeat split; cbn; auto; apply R.
    + exists (Asctime false). repeat split; cbn; auto; apply R.
Qed.
Lemma form_obsolete (f : fields) k : form_ok (f, k) -> written_as (form_text (f, k)) f (match k with Imf => false | _ => true end).
Proof.
  intros [R O]. destruct k as [| |[|]]; cbn in *.
  - now constructor.
  - now apply wa_rfc850.
  - now apply wa_asctime2.
  - apply wa_asctime1; [reflexivity|]. destruct O; [discriminate|assumption].
Qed.

Lemma date_of_form f k cs : form_ok (f, k) ->
  Permutation (dt_notes f ++ form_notes (f, k) ++ snd (check_day_of_week (dt_value f))) cs ->
  date_spec (form_text (f, k)) (fst (check_day_of_week (dt_value f))) cs.
Proof.
  intros O P. exists f, (match k with Imf => false | _ => true end). split; [apply O|]. split; [now apply form_obsolete|].
  pose proof (real_date_spec (proj1 O)) as RD. cbn [fst] in RD. pose proof (real_time_spec f) as RT. pose proof (@right_weekday_spec f) as RW.
  assert (ND : forall l l' : list vcomplaint, Permutation l l' -> NoDup (map fst l) -> NoDup (map fst l')).
  { intros l l' Q. apply Permutation_NoDup. now apply Permutation_map. }
  assert (NI : forall n, In n (map fst (dt_notes f ++ form_notes (f, k) ++ snd (check_day_of_week (dt_value f)))) <-> In n (map fst cs)).
  { intro n. split; apply Permutation_in; [|apply Permutation_sym]; now apply Permutation_map. }
  unfold dt_notes, dt_value, to_datetime, to_date, to_time in *.
  match goal with |- context [valid_date ?a ?b ?c] => destruct (valid_date a b c) eqn:E1 end;
    match goal with |- context [valid_time ?a ?b ?c] => destruct (valid_time a b c) eqn:E2 end; cbn [fst snd app check_day_of_week] in *.
  1: { assert (Dt : real_date f) by tauto. assert (Tm : real_time f) by tauto. specialize (RW Dt).
    split; [|split; [|split]].
    - intros _. destruct (_ =? _)%Z; reflexivity.
    - tauto.
    - apply (ND _ _ P). destruct (_ =? _)%Z; destruct k; cbn; repeat constructor; cbn; intuition discriminate.
    - intro n. rewrite <- NI. unfold date_notice. destruct (_ =? _)%Z; destruct k; cbn; intuition (subst; try discriminate; auto). }
  all: assert (Dt : real_date f \/ ~ real_date f) by (rewrite <- RD; clear; match goal with |- ?b = true \/ _ => destruct b; intuition discriminate end).
  all: assert (~ (real_date f /\ real_time f)) by (rewrite <- RD, <- RT; intuition congruence).
  all: assert (Tm : real_time f \/ ~ real_time f) by (rewrite <- RT; clear; match goal with |- ?b = true \/ _ => destruct b; intuition discriminate end).
  all: split; [tauto|split; [intros _; eexists; reflexivity|split]].
  all: try (apply (ND _ _ P); destruct k; cbn; repeat constructor; cbn; intuition discriminate).
  all: intro n; rewrite <- NI; unfold date_notice; destruct k; cbn; intuition (subst; try discriminate; auto).
Qed.

Lemma HTTP_date_spec nested w v cs : M rec_rules (pyfun nested) HTTP_date w v cs -> date_spec w v cs.
Proof.
  intro H. apply HTTP_date_M in H. destruct H as [[f k] [O [-> [-> P]]]]. now apply date_of_form.
Qed.
Lemma HTTP_date_accepts nested w : (exists v cs, M rec_rules (pyfun nested) HTTP_date w v cs) <-> exists f b, in_range f /\ written_as w f b.
Proof.
  split.
  - intros [v [cs H]]. apply HTTP_date_spec in H. destruct H as [f [b [R [W _]]]]. eauto.
  - intros [f [b [R W]]]. destruct (proj2 (form_written f w)) as [k [O [-> _]]]; [eauto|].
    eexists _, _. apply HTTP_date_M. exists (f, k). repeat split; try apply O. apply Permutation_refl.
Qed.
