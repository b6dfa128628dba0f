(** The chart construction ends, for every finite grammar and every input. *)
From Coq Require Import ZifyBool ZifyNat ZifyN.
From Verif Require Import Base Earley EarleySpec EarleyChart EarleyItems.
Open Scope nat_scope.
Unset Strict Implicit.

Section Term.
Context {G : grammar}.
Implicit Types (A B : nt G) (it : item G) (items : list (item G)).

Lemma predicted_reach data T k A : predicted data T k A -> reach T A.
Proof.
  induction 1 as [|k A r pos B i P IH Ir N D]; [constructor|].
  eapply reach_step; eauto. eapply nth_error_In; eauto.
Qed.

Lemma reach_closed (nts : list (nt G)) T A : closed nts -> In T nts -> reach T A -> In A nts.
Proof. intros C I. induction 1; eauto. Qed.

(** All the items there can be up to position [i]. *)
Definition universe (nts : list (nt G)) (i : nat) : list (item G) :=
  flat_map (fun A => flat_map (fun r => flat_map (fun pos =>
    map (fun k => Item A r pos k) (seq 0 (S i))) (seq 0 (S (List.length (g_rhs r)))))
    (g_rules A)) nts.

Lemma valid_universe nts data T i it :
  closed nts -> In T nts -> valid data T i it -> In it (universe nts i).
Proof.
  intros C I V. pose proof (valid_start V) as [L _]. destruct V as [V1 [V2 [V3 _]]].
  destruct it as [A r pos k]. cbn [it_nt it_rl it_pos it_start] in *. unfold universe.
  apply in_flat_map. exists A. split; [eapply reach_closed; eauto; eapply predicted_reach; eauto|].
  apply in_flat_map. exists r. split; auto.
  apply in_flat_map. exists pos. split; [apply in_seq; lia|].
  apply (in_map (fun k => Item A r pos k)). apply in_seq. lia.
Qed.

Lemma inv_bound nts data T i items :
  closed nts -> In T nts -> Forall (valid data T i) items -> NoDup items ->
  List.length items <= List.length (universe nts i).
Proof.
  intros C I V N. apply NoDup_incl_length; auto. intros it In0.
  rewrite Forall_forall in V. eapply valid_universe; eauto.
Qed.

Lemma filter_length_le {X} (p : X -> bool) l : List.length (filter p l) <= List.length l.
Proof. induction l as [|x l IH]; simpl; [lia|]. destruct (p x); simpl; lia. Qed.

Section Bounds.
Variable (data : str) (T : nt G) (nts : list (nt G)).
Hypothesis C : closed nts.
Hypothesis IT : In T nts.
Variable nf : nat.
Hypothesis NF : forall B, reach T B -> exists b, is_nullable nf B = Done b.

Definition size (i : nat) : nat := List.length (universe nts i).

Lemma complete_ends i k prev A : dspan data [Nt A] k i ->
  match prev with
  | Some p => Forall (valid data T k) p /\ List.length p <= size i
  | None => k = i
  end ->
  forall m c items f, Forall (valid data T i) items -> NoDup items ->
  size i - c <= m -> m < f -> exists l, complete f prev A c items = Done l.
Proof.
  intros D P. induction m as [|m IH]; intros c items f V ND L Lf; (destruct f as [|f]; [lia|]);
    cbn [complete]; destruct (nth_error _ c) as [it|] eqn:E; try (now eexists).
  - exfalso. assert (c < List.length (filter (waits A) (match prev with Some p => p | None => items end))).
    { apply nth_error_Some. congruence. }
    pose proof (filter_length_le (waits A) (match prev with Some p => p | None => items end)).
    destruct prev as [p|]; [destruct P; lia|].
    pose proof (inv_bound C IT V ND). unfold size in *. lia.
  - assert (V' : valid data T i (advance it)).
    { apply nth_error_In in E. apply filter_In in E. destruct E as [E W]. apply waits_next in W.
      destruct prev as [p|].
      - destruct P as [P _]. rewrite Forall_forall in P. eapply valid_advance; eauto.
      - subst k. rewrite Forall_forall in V. eapply valid_advance; eauto. }
    apply IH; auto using add_item_NoDup; try lia. now apply add_item_Forall.
Qed.

Lemma universe_mono i j : i <= j -> size i <= size j.
Proof.
  intro L. unfold size, universe.
  assert (X : forall {X Y} (f g : X -> list Y) l, (forall x, List.length (f x) <= List.length (g x)) ->
    List.length (flat_map f l) <= List.length (flat_map g l)).
  { intros X Y f g l H. induction l as [|x l IHl]; simpl; [lia|]. rewrite !app_length. specialize (H x). lia. }
  apply X. intro A. apply X. intro r. apply X. intro pos. rewrite !map_length, !seq_length. lia.
Qed.

Lemma process_ends i chart it items next f :
  chart_valid data T chart -> Forall (@NoDup _) chart -> In it items -> inv data T i items next ->
  nf <= f -> size i < f ->
  exists p, process f i (nth_error data i) chart it items next = Done p.
Proof.
  intros CV NDs I IV L1 L2. pose proof (proj1 (Forall_forall _ _) (inv_valid IV) _ I) as V.
  unfold process. destruct (next_sym it) as [[bits|B]|] eqn:E.
  - destruct (nth_error data i) as [c|]; [destruct (tmatch bits c)|]; now eexists.
  - destruct (NF (B := B)) as [b Eb].
    { destruct V as [V1 [V2 _]]. apply predicted_reach in V1. eapply reach_step; eauto.
      unfold next_sym in E. eapply nth_error_In; eauto. }
    rewrite (nullable_mono Eb L1). cbn [obind]. now eexists.
  - pose proof (valid_completed V E) as D. pose proof (valid_start V) as [Ls _].
    destruct (@complete_ends i (it_start it) (if it_start it =? i then None
                            else Some (nth (it_start it) chart [])) (it_nt it) D) with
      (m := size i) (c := 0) (items := items) (f := f) as [l El]; auto; try apply IV; try lia.
    + destruct (it_start it =? i) eqn:Q; [lia|]. split; [apply CV|].
      transitivity (size (it_start it)); [|now apply universe_mono].
      eapply inv_bound; eauto.
      destruct (Nat.lt_ge_cases (it_start it) (List.length chart)) as [Lc|Lc].
      * rewrite Forall_forall in NDs. apply NDs. now apply nth_In.
      * rewrite nth_over by lia. constructor.
    + rewrite El. cbn [obind]. now eexists.
Qed.

Lemma inner_ends i chart :
  chart_valid data T chart -> Forall (@NoDup _) chart ->
  forall m j items next f, inv data T i items next ->
  size i - j <= m -> j <= List.length items -> m + nf + size i + 1 < f ->
  exists p, inner_loop f i (nth_error data i) chart j items next = Done p.
Proof.
  intros CV NDs. induction m as [|m IH]; intros j items next f IV L Lj Lf;
    (destruct f as [|f]; [lia|]); cbn [inner_loop];
    destruct (nth_error items j) as [it|] eqn:E; try (now eexists).
  - exfalso. assert (j < List.length items) by (apply nth_error_Some; congruence).
    pose proof (inv_bound C IT (inv_valid IV) (inv_nodup IV)). unfold size in *. lia.
  - pose proof (nth_error_In _ _ E) as I.
    destruct (@process_ends i chart it items next f CV NDs I IV) as [[items' next'] Ep]; try lia.
    rewrite Ep. cbn [obind fst snd].
    destruct (process_sound Ep CV I IV) as [G1 [G2 [IV' _]]].
    apply IH; auto; try lia.
    assert (j < List.length items) by (apply nth_error_Some; congruence).
    destruct G1 as [e ->]. rewrite app_length. lia.
Qed.

Lemma outer_ends f : forall rest i chart items,
  rest = skipn i data -> i <= List.length data -> List.length chart = i ->
  chart_valid data T (chart ++ [items]) -> NoDup items -> Forall (@NoDup _) chart ->
  (2 * size (List.length data) + nf + 1 < f) ->
  exists p, outer_loop f i rest chart items = Done p.
Proof.
  induction rest as [|c rest IH]; intros i chart items ER Li Lc CV ND NDs Lf; cbn [outer_loop];
    destruct items as [|it0 items0] eqn:EI; try (now eexists); rewrite <- EI in *; clear EI it0 items0;
    (assert (CV' : chart_valid data T chart);
     [intro k; destruct (Nat.lt_ge_cases k i);
       [specialize (CV k); rewrite nth_snoc_lt in CV by lia; assumption
       |rewrite nth_over by lia; constructor]|]);
    (assert (IV : inv data T i items []);
     [constructor; auto; try constructor; specialize (CV i); rewrite <- Lc, nth_snoc_eq in CV;
      now rewrite Lc in CV|]);
    pose proof (@universe_mono i (List.length data) Li) as Lu.
  - assert (Et : nth_error data i = None).
    { apply nth_error_None. assert (E : List.length (skipn i data) = 0) by (now rewrite <- ER).
      rewrite skipn_length in E. lia. }
    destruct (@inner_ends i chart CV' NDs (size i) 0 items [] f IV) as [p Ep]; try lia.
    change (hd_error []) with (@None N). rewrite Et in Ep. rewrite Ep. cbn [obind]. now eexists.
  - assert (Ec : nth_error data i = Some c /\ rest = skipn (S i) data).
    { assert (E : List.length (skipn i data) = S (List.length rest)) by (now rewrite <- ER).
      rewrite skipn_length in E.
      destruct (nth_error data i) as [c'|] eqn:Q.
      - pose proof (skipn_nth_error Q) as SK. rewrite <- ER in SK. injection SK as -> ->. auto.
      - apply nth_error_None in Q. lia. }
    destruct Ec as [Ec Er].
    assert (Li' : i < List.length data) by (apply nth_error_Some; congruence).
    destruct (@inner_ends i chart CV' NDs (size i) 0 items [] f IV) as [[items' next'] Ep]; try lia.
    cbn [hd_error]. rewrite <- Ec, Ep. cbn [obind fst snd].
    destruct (inner_sound Ep CV' IV) as [G1 [IV' _]]; [intros; lia|].
    apply IH; auto; try lia.
    + rewrite app_length. simpl. lia.
    + intro k. destruct (Nat.lt_trichotomy k i) as [L|[->|L]].
      * rewrite app_nth1 by (rewrite app_length; simpl; lia). rewrite app_nth1 by lia. apply CV'.
      * rewrite app_nth1 by (rewrite app_length; simpl; lia). rewrite <- Lc at 2. rewrite nth_snoc_eq. apply IV'.
      * destruct (Nat.eq_dec k (S i)) as [->|Q].
        -- replace (S i) with (List.length (chart ++ [items'])) at 2 by (rewrite app_length; simpl; lia).
           rewrite nth_snoc_eq. apply IV'.
        -- rewrite nth_over; [constructor|]. rewrite !app_length. simpl. lia.
    + apply IV'.
    + apply Forall_app. split; auto. constructor; auto. apply IV'.
Qed.

End Bounds.

Theorem build_chart_ends data (T : nt G) : finite_from T -> nullable_ends T ->
  exists f chart stop, build_chart f data T = Done (chart, stop).
Proof.
  intros [nts [I C]] [nf NF].
  destruct (@outer_ends data T nts C I nf NF (2 * size nts (List.length data) + nf + 2) data 0 [] (seed T))
    as [[chart stop] E]; auto; try lia.
  - intro k. destruct k.
    + apply add_items_Forall; [constructor|]. apply Forall_forall. intros it J.
      apply in_map_iff in J. destruct J as [r [<- J]]. now apply valid_0.
    + simpl. destruct k; constructor.
  - apply add_items_NoDup. constructor.
  - exists (2 * size nts (List.length data) + nf + 2), chart, stop. exact E.
Qed.

End Term.
