(** [_inner_parse] as a whole: it ends, it accepts the language, its result
    is the meaning of a derivation, and its error report is exact. *)
From Coq Require Import ZifyBool ZifyNat ZifyN.
From Verif Require Import Base Earley EarleySpec EarleyChart EarleyItems EarleyTerm EarleySearch EarleyTop.
Open Scope nat_scope.
Unset Strict Implicit.

Section Main.
Context {G : grammar} {R : Type}.
Variable leaf : N -> R.
Variable act : nt G -> rl G -> nat -> nat -> list R -> R.
Variable act_rep : list R -> R.
Implicit Types (A B : nt G) (it : item G) (chart : list (list (item G))).

Let parse := inner_parse leaf act act_rep.

(** * More fuel does not change an answer *)

Lemma error_mono f f' data A chart e : f <= f' ->
  build_parse_error f data A chart = Done e -> build_parse_error f' data A chart = Done e.
Proof.
  intros L H. unfold build_parse_error in *. destruct (last_nonempty 0 chart) as [[i items]|]; [|discriminate].
  obinds H. erewrite concat_map_mono; [exact H| |exact H1].
  intros it ys Hi. cbn beta in *. obinds Hi. destruct (next_sym it) as [[bits|B]|]; auto.
  - obinds H0. erewrite pivots_mono; eauto. injection H0 as <-. exact Hi.
  - now rewrite H0.
  - now rewrite H0.
Qed.

Lemma parse_mono f f' data A p : f <= f' -> parse f data A = Done p -> parse f' data A = Done p.
Proof.
  intros L H. unfold parse, inner_parse in *. obinds H. destruct a as [chart stop].
  rewrite (build_chart_mono L H1). cbn [obind].
  assert (F : forall q, obind (build_parse_error f data A chart) (fun e => Done (Rejected e)) = Done q ->
              obind (build_parse_error f' data A chart) (fun e => Done (@Rejected G R e)) = Done q).
  { intros q Hq. obinds Hq. rewrite (error_mono L H0). exact Hq. }
  destruct (stop =? List.length data); [|now apply F].
  obinds H. rewrite (find_mono L H0). cbn [obind]. destruct (first_at_0 a); [assumption|now apply F].
Qed.

(** * Termination *)

Lemma error_ends data T chart : (exists k, nth k chart [] <> []) ->
  exists f e, build_parse_error f data T chart = Done e.
Proof.
  intros [k Hk]. exists (S (fresh_pairs chart [])). unfold build_parse_error.
  destruct (last_nonempty_some Hk 0) as [[i items] E]. rewrite E.
  apply last_nonempty_spec in E. destruct E as [_ [E _]].
  match goal with |- exists e, obind (concat_map_out ?g ?l) _ = _ =>
    destruct (@concat_map_total _ _ g l) as [zs Z] end.
  - intros it I. destruct (next_sym it) as [[bits|B]|]; try (eexists; reflexivity).
    destruct (@pivots_end G chart (fresh_pairs chart []) (it_nt it) (it_start it) [] (S (fresh_pairs chart []))) as [l El]; auto; try lia.
    + rewrite <- E in I. now apply chart_pairs_in in I.
    + rewrite El. eexists; reflexivity.
  - rewrite Z. eexists; reflexivity.
Qed.

Lemma parse_ends data T : finite_from T -> nullable_ends T -> @rep_ok G -> g_rules T <> [] ->
  exists f p, parse f data T = Done p.
Proof.
  intros FT NT RO NE. destruct (build_chart_ends data FT NT) as [f1 [chart [stop B]]].
  pose proof (fun i it => @chart_exact G f1 data T chart stop i it B) as EX.
  destruct (@error_ends data T chart) as [f2 [e E]].
  { exists 0. destruct (g_rules T) as [|r rs] eqn:Er; [congruence|].
    apply build_chart_sound in B. destruct B as [_ [_ [B _]]].
    specialize (B r). rewrite Er in B. specialize (B (or_introl eq_refl)). intro X. rewrite X in B. destruct B. }
  pose proof (build_chart_sound B) as BS. destruct BS as [_ [_ [_ [_ [Ls _]]]]].
  destruct (@search_total G R leaf act act_rep data T chart EX RO (stop, []) Ls (Nt T)) as [L [g0 [F _]]].
  cbn [fst snd] in F. set (f := f1 + f2 + g0). exists f. unfold parse, inner_parse.
  rewrite (@build_chart_mono G f1 f data T (chart, stop)); auto; [|unfold f; lia]. cbn [obind].
  rewrite (@error_mono f2 f data T chart e); auto; [|unfold f; lia]. cbn [obind].
  destruct (stop =? List.length data); [|now eexists].
  rewrite F by (unfold f; lia). cbn [obind]. destruct (first_at_0 L); now eexists.
Qed.

(** * Acceptance *)

Lemma tree_generates A t : tree_of (Nt A) t -> generates A (tree_yield t).
Proof.
  intro H. pose proof (proj1 (@forest_derives G) _ _ H) as D. apply derives_nt_inv in D.
  destruct D as [u [v [E [Gu D]]]]. inversion D; subst. rewrite app_nil_r in E. now rewrite E.
Qed.

Lemma accepted_means f data T r : @rep_ok G -> parse f data T = Done (Accepted r) ->
  exists t, tree_of (Nt T) t /\ tree_yield t = data /\ r = meaning leaf act act_rep 0 t.
Proof.
  intros RO H. unfold parse, inner_parse in H. obinds H. destruct a as [chart stop].
  pose proof (fun i it => @chart_exact G f data T chart stop i it H1) as EX.
  assert (NF : obind (build_parse_error f data T chart) (fun e => Done (@Rejected G R e)) <> Done (Accepted r)).
  { intro X. obinds X. discriminate. }
  destruct (stop =? List.length data) eqn:Es; [|contradiction].
  apply Nat.eqb_eq in Es. subst stop. obinds H.
  destruct (first_at_0 a) as [r'|] eqn:E0; [|contradiction]. injection H as ->.
  destruct (@search_total G R leaf act act_rep data T chart EX RO (List.length data, []) (le_n _) (Nt T)) as [L [g0 [F [S _]]]].
  cbn [fst snd] in F, S.
  assert (L = a).
  { specialize (F (f + g0)). rewrite (@find_mono G R leaf act act_rep f (f + g0) data chart (Nt T) (List.length data) [] a) in F; auto; [|lia].
    assert (X : Done a = Done L) by (apply F; lia). congruence. }
  subst a. unfold first_at_0 in E0. match type of E0 with context [List.find ?g ?l] => destruct (List.find g l) as [[[k oi] v]|] eqn:EF end; [|discriminate].
  injection E0 as <-. apply find_some in EF. destruct EF as [I E]. cbn [fst snd] in E. apply Nat.eqb_eq in E. subst k.
  rewrite Forall_forall in S. destruct (S _ I) as [t [[T1 [T2 [T3 T4]]] [Tm _]]]. cbn [fst snd] in *.
  exists t. split; [exact T1|]. split; [|exact Tm]. rewrite <- T4. now apply slice_all.
Qed.

Lemma generates_tree A w : generates A w -> exists t, tree_of (Nt A) t /\ tree_yield t = w.
Proof.
  intros Gw. destruct (generates_dspan Gw) as [r [I D]]. apply dspan_forest in D.
  destruct D as [fo FA]. destruct (tree_at_node I FA) as [T1 [T2 [T3 T4]]].
  exists (Node A r fo). split; auto. rewrite <- T4. now apply slice_all.
Qed.

Lemma generates_accepted f data T p : @rep_ok G -> generates T data -> parse f data T = Done p ->
  exists r, p = Accepted r.
Proof.
  intros RO Gd H. unfold parse, inner_parse in H. obinds H. destruct a as [chart stop].
  pose proof (fun i it => @chart_exact G f data T chart stop i it H1) as EX.
  pose proof (build_chart_sound H1) as [_ [_ [_ [_ [Ls [Z1 Z2]]]]]].
  assert (V : exists it, valid data T (List.length data) it).
  { apply viable_valid; auto. exists []. now rewrite app_nil_r, firstn_all. }
  destruct V as [it V]. apply EX in V.
  assert (Es : stop = List.length data).
  { destruct (Nat.eq_dec stop (List.length data)); auto. rewrite Z2 in V by lia. destruct V. }
  rewrite Es, Nat.eqb_refl in H. obinds H.
  destruct (@search_total G R leaf act act_rep data T chart EX RO (List.length data, []) (le_n _) (Nt T)) as [L [g0 [F [_ C]]]].
  cbn [fst snd] in F, C.
  assert (L = a).
  { specialize (F (f + g0)). rewrite (@find_mono G R leaf act act_rep f (f + g0) data chart (Nt T) (List.length data) [] a) in F; auto; [|lia].
    assert (X : Done a = Done L) by (apply F; lia). congruence. }
  subst a. destruct (generates_tree Gd) as [t [T1 T2]].
  destruct (C t 0) as [[oi [v I]]|Hh].
  - repeat split; auto; [now rewrite T2|]. rewrite T2. now apply slice_all.
  - constructor.
  - unfold first_at_0 in H. match type of H with context [List.find ?g ?l] => destruct (List.find g l) as [r|] eqn:EF end.
    + injection H as <-. eauto.
    + apply find_none with (x := (0, oi, v)) in EF; auto. discriminate.
  - now apply hits_nil in Hh.
Qed.

(** * The error report *)

Lemma rejected_error f data T e : parse f data T = Done (Rejected e) ->
  exists chart, (forall i it, In it (nth i chart []) <-> valid data T i it)
    /\ (forall k, List.length data < k -> nth k chart [] = [])
    /\ build_parse_error f data T chart = Done e.
Proof.
  intro H. unfold parse, inner_parse in H. obinds H. destruct a as [chart stop].
  exists chart. split; [intros i it; eapply chart_exact; eauto|].
  pose proof (build_chart_sound H1) as [_ [_ [_ [_ [Ls [Z1 Z2]]]]]].
  split; [intros k Lk; apply Z2; lia|].
  assert (F : obind (build_parse_error f data T chart) (fun e => Done (@Rejected G R e)) = Done (Rejected e) ->
              build_parse_error f data T chart = Done e).
  { intro X. obinds X. congruence. }
  destruct (stop =? List.length data); [|auto].
  obinds H. destruct (first_at_0 a); [discriminate|auto].
Qed.

(** What is listed, in terms of supported items. *)
Lemma error_items f data T chart e :
  (forall i it, In it (nth i chart []) <-> valid data T i it) ->
  (forall k, List.length data < k -> nth k chart [] = []) ->
  build_parse_error f data T chart = Done e ->
  pe_position e <= List.length data
  /\ pe_found e = nth_error data (pe_position e)
  /\ (exists it, valid data T (pe_position e) it)
  /\ (forall j, pe_position e < j -> forall it, ~ valid data T j it)
  /\ (forall bits ps, In (ExpTerminal bits ps) (pe_expected e) <->
        exists it, valid data T (pe_position e) it /\ next_sym it = Some (Tm bits)
          /\ find_pivots f chart (it_nt it) (it_start it) [] = Done ps)
  /\ (In ExpEnd (pe_expected e) <->
        exists it, valid data T (pe_position e) it /\ next_sym it = None /\ it_nt it = T)
  /\ (forall it bits, valid data T (pe_position e) it -> next_sym it = Some (Tm bits) ->
        exists ps, find_pivots f chart (it_nt it) (it_start it) [] = Done ps).
Proof.
  intros EX Z H. unfold build_parse_error in H.
  destruct (last_nonempty 0 chart) as [[i items]|] eqn:E; [|discriminate].
  apply last_nonempty_spec in E. rewrite Nat.sub_0_r in E. destruct E as [_ [E1 [E2 E3]]].
  obinds H. injection H as <-. cbn [pe_position pe_found pe_expected].
  assert (Ex : exists it, valid data T i it).
  { destruct items as [|it items']; [congruence|]. exists it. apply EX. rewrite E1. now left. }
  assert (Li : i <= List.length data).
  { destruct (Nat.lt_ge_cases (List.length data) i) as [L|L]; auto. rewrite Z in E1 by assumption. congruence. }
  pose proof (fun y => @concat_map_in _ _ _ _ _ y H1) as I.
  split; [exact Li|]. split; [reflexivity|]. split; [exact Ex|].
  split.
  { intros j Lj it V. apply EX in V. specialize (E3 j Lj). rewrite Nat.sub_0_r in E3. rewrite E3 in V. destruct V. }
  split; [|split].
  - intros bits ps. rewrite I. split.
    + intros [it [ys [J1 [J2 J3]]]]. exists it. rewrite <- E1, EX in J1. split; auto.
      obinds J2. destruct (next_sym it) as [[b|B]|].
      * obinds H0. injection H0 as <-. injection J2 as <-. simpl in J3.
        destruct J3 as [J3|[]]. injection J3 as -> ->. auto.
      * injection H0 as <-. injection J2 as <-. destruct J3.
      * injection H0 as <-. injection J2 as <-. destruct (nt_dec (it_nt it) T); simpl in J3.
        -- destruct J3 as [J3|[]]; discriminate.
        -- destruct J3.
    + intros [it [V [N P]]]. exists it. exists [ExpTerminal bits ps]. split; [rewrite <- E1; now apply EX|].
      cbn beta. rewrite N, P. split; [reflexivity|now left].
  - rewrite I. split.
    + intros [it [ys [J1 [J2 J3]]]]. exists it. rewrite <- E1, EX in J1. split; auto.
      obinds J2. destruct (next_sym it) as [[b|B]|].
      * obinds H0. injection H0 as <-. injection J2 as <-. simpl in J3.
        destruct J3 as [J3|[]]. discriminate.
      * injection H0 as <-. injection J2 as <-. destruct J3.
      * injection H0 as <-. injection J2 as <-. split; auto. destruct (nt_dec (it_nt it) T); auto. destruct J3.
    + intros [it [V [N P]]]. exists it, [ExpEnd]. split; [rewrite <- E1; now apply EX|].
      cbn beta. rewrite N. cbn [obind app]. destruct (nt_dec (it_nt it) T); [|congruence]. split; [reflexivity|now left].
  - intros it bits V N. apply EX in V. rewrite E1 in V. clear - H1 V N.
    revert a H1. induction items as [|it' items IH]; intros a H1; [destruct V|].
    cbn [concat_map_out] in H1. obinds H1. obinds H1. destruct V as [->|V]; [|eauto].
    rewrite N in H0. obinds H0. obinds H3. eauto.
Qed.

Lemma slice_snoc_app data k j i (u : str) : k <= j -> j <= i ->
  slice data k j ++ slice data j i ++ u = slice data k i ++ u.
Proof. intros. rewrite app_assoc. now rewrite slice_app by lia. Qed.

Lemma pivots_sound data T chart : (forall i it, In it (nth i chart []) <-> valid data T i it) ->
  productive T ->
  forall f A k stack l i u, find_pivots f chart A k stack = Done l ->
  predicted data T k A -> k <= i ->
  (exists w, generates A (slice data k i ++ u ++ w)) ->
  forall p, In p l -> g_pivot p = true
    /\ exists k' w v, k' <= i /\ generates p (slice data k' i ++ u ++ w)
       /\ generates T (firstn k' data ++ (slice data k' i ++ u ++ w) ++ v).
Proof.
  intros EX PT. induction f as [|f IH]; intros A k stack l i u H P Lk [w Gw] p Ip; [discriminate|].
  cbn [find_pivots] in H. destruct (g_pivot A) eqn:EP.
  - injection H as <-. destruct Ip as [<-|[]]. split; auto.
    destruct (predicted_context EX PT P Gw) as [v Gv]. exists k, w, v. auto.
  - apply (@concat_map_in _ _ _ _ _ p H) in Ip. destruct Ip as [it [ys [I1 [I2 I3]]]].
    cbn beta in I2. destruct (existsb _ _); [injection I2 as <-; destruct I3|].
    apply filter_In in I1. destruct I1 as [I1 W]. apply EX in I1. destruct I1 as [V1 [V2 [V3 V4]]].
    unfold waits in W. destruct (next_sym it) as [[b|B]|] eqn:N; try discriminate.
    destruct (nt_dec A B) as [<-|]; [|discriminate]. unfold next_sym in N.
    destruct (PT _ _ (predicted_reach V1) V2) as [w0 W0].
    assert (Es : g_rhs (it_rl it) = firstn (it_pos it) (g_rhs (it_rl it)) ++ Nt A :: skipn (S (it_pos it)) (g_rhs (it_rl it))).
    { rewrite <- (firstn_skipn (it_pos it) (g_rhs (it_rl it))) at 1. f_equal. clear - N.
      revert N. generalize (it_pos it). induction (g_rhs (it_rl it)) as [|x l IH]; intros [|pos] N; simpl in *; try discriminate.
      - congruence.
      - now apply IH. }
    rewrite Es in W0. apply derives_split in W0. destruct W0 as [w1 [w2 [_ [_ W2]]]].
    apply derives_nt_inv in W2. destruct W2 as [w3 [w4 [_ [_ W4]]]].
    pose proof (dspan_le V4) as L. apply dspan_derives in V4.
    eapply (IH _ _ _ _ i u I2 V1); [lia| |exact I3].
    exists (w ++ w4). exists (it_rl it). split; auto. rewrite Es.
    rewrite <- (@slice_snoc_app data (it_start it) k i) by lia. apply derives_app; auto.
    rewrite !app_assoc. change (Nt A :: skipn (S (it_pos it)) (g_rhs (it_rl it))) with ([Nt A] ++ skipn (S (it_pos it)) (g_rhs (it_rl it))).
    apply derives_app; auto. apply generates_derives. now rewrite <- app_assoc.
Qed.

End Main.
