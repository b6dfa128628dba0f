(** The chart construction: soundness, closure and termination. *)
From Coq Require Import ZifyBool ZifyNat ZifyN.
From Verif Require Import Base Earley EarleySpec EarleyChart.
Open Scope nat_scope.
Unset Strict Implicit.

Lemma obind_done {A B} (x : out A) (f : A -> out B) b :
  obind x f = Done b -> exists a, x = Done a /\ f a = Done b.
Proof. destruct x; simpl; intro H; try discriminate. eauto. Qed.

Ltac obinds H :=
  let a := fresh "a" in let H1 := fresh "H1" in
  apply obind_done in H; destruct H as [a [H1 H]].

Section Items.
Context {G : grammar}.
Implicit Types (A B : nt G) (it : item G) (items : list (item G)).

(** * More fuel does not change an answer *)

Lemma nullable_mono f : forall A b f', is_nullable f A = Done b -> f <= f' -> is_nullable f' A = Done b.
Proof.
  induction f as [|f IH]; intros A b f' H L; [discriminate|].
  destruct f' as [|f']; [lia|]. cbn [is_nullable] in *.
  revert b H. induction (g_rules A) as [|r rs IHr]; intros b H; [assumption|].
  apply obind_done in H. destruct H as [b1 [E H]].
  match goal with |- obind ?x _ = _ => assert (E' : x = Done b1) end.
  { revert b1 E H. induction (g_rhs r) as [|x ss IHs]; intros b1 E H; [assumption|].
    destruct x as [bits|B]; [assumption|].
    apply obind_done in E. destruct E as [b2 [E1 E]].
    rewrite (IH _ _ f' E1) by lia. cbn [obind]. destruct b2; [|assumption]. eapply IHs; eauto. }
  rewrite E'. cbn [obind]. destruct b1; auto.
Qed.

Lemma complete_mono f : forall prev A c items l f',
  complete f prev A c items = Done l -> f <= f' -> complete f' prev A c items = Done l.
Proof.
  induction f as [|f IH]; intros prev A c items l f' H L; [discriminate|].
  destruct f' as [|f']; [lia|]. cbn [complete] in *.
  destruct (nth_error _ c); [|assumption]. apply (IH _ _ _ _ _ f' H). lia.
Qed.

Lemma process_mono f i tok chart it items next p f' :
  process f i tok chart it items next = Done p -> f <= f' ->
  process f' i tok chart it items next = Done p.
Proof.
  unfold process. intros H L. destruct (next_sym it) as [[bits|B]|]; [assumption| |].
  - obinds H. rewrite (nullable_mono H1 L). assumption.
  - obinds H. rewrite (complete_mono H1 L). assumption.
Qed.

Lemma inner_mono f : forall i tok chart j items next p f',
  inner_loop f i tok chart j items next = Done p -> f <= f' ->
  inner_loop f' i tok chart j items next = Done p.
Proof.
  induction f as [|f IH]; intros i tok chart j items next p f' H L; [discriminate|].
  destruct f' as [|f']; [lia|]. cbn [inner_loop] in *.
  destruct (nth_error items j); [|assumption].
  obinds H. rewrite (process_mono (f' := f') H1) by lia. cbn [obind].
  apply (IH _ _ _ _ _ _ _ f' H). lia.
Qed.

Lemma outer_mono f f' : f <= f' -> forall rest i chart items p,
  outer_loop f i rest chart items = Done p -> outer_loop f' i rest chart items = Done p.
Proof.
  intro L. induction rest as [|c rest IH]; intros i chart items p H; cbn [outer_loop] in *;
    (destruct items; [assumption|]); obinds H; rewrite (inner_mono H1 L); cbn [obind]; auto.
Qed.

Lemma build_chart_mono f f' data A p : f <= f' ->
  build_chart f data A = Done p -> build_chart f' data A = Done p.
Proof. intros L. now apply outer_mono. Qed.

(** * Items and their support *)

Inductive predicted (data : str) (T : nt G) : nat -> nt G -> Prop :=
| predicted_0 : predicted data T 0 T
| predicted_step k A r pos B i :
    predicted data T k A -> In r (g_rules A) -> nth_error (g_rhs r) pos = Some (Nt B) ->
    dspan data (firstn pos (g_rhs r)) k i -> predicted data T i B.

Definition valid data T (i : nat) it : Prop :=
  predicted data T (it_start it) (it_nt it) /\ In (it_rl it) (g_rules (it_nt it))
  /\ it_pos it <= List.length (g_rhs (it_rl it))
  /\ dspan data (firstn (it_pos it) (g_rhs (it_rl it))) (it_start it) i.

Lemma firstn_snoc {X} (l : list X) n x :
  nth_error l n = Some x -> firstn (S n) l = firstn n l ++ [x].
Proof.
  revert n; induction l as [|y l IH]; intros [|n] H; simpl in *; try congruence.
  f_equal. now apply IH.
Qed.

Lemma valid_start data T i it : valid data T i it -> it_start it <= i /\ i <= List.length data.
Proof. intros [_ [_ [_ H]]]. now apply dspan_le in H. Qed.

Lemma valid_advance data T j i it x :
  valid data T j it -> next_sym it = Some x -> dspan data [x] j i -> valid data T i (advance it).
Proof.
  intros [V1 [V2 [V3 V4]]] N D. unfold next_sym in N.
  repeat split; cbn [advance it_start it_nt it_rl it_pos]; auto.
  - enough (it_pos it < Datatypes.length (g_rhs (it_rl it))) by lia.
    apply nth_error_Some. congruence.
  - rewrite (firstn_snoc N). eapply dspan_app; eauto.
Qed.

Lemma valid_predict data T i it B r :
  valid data T i it -> next_sym it = Some (Nt B) -> In r (g_rules B) ->
  valid data T i (Item B r 0 i).
Proof.
  intros [V1 [V2 [V3 V4]]] N I. unfold next_sym in N.
  repeat split; cbn [it_start it_nt it_rl it_pos firstn]; auto; try lia.
  - eapply predicted_step; eauto.
  - constructor. now apply dspan_le in V4.
Qed.

Lemma next_none_firstn it : next_sym it = None -> it_pos it <= List.length (g_rhs (it_rl it)) ->
  firstn (it_pos it) (g_rhs (it_rl it)) = g_rhs (it_rl it).
Proof. unfold next_sym. rewrite nth_error_None. intros. apply firstn_all2. lia. Qed.

Lemma valid_completed data T i it :
  valid data T i it -> next_sym it = None -> dspan data [Nt (it_nt it)] (it_start it) i.
Proof.
  intros [V1 [V2 [V3 V4]]] N. rewrite (next_none_firstn N V3) in V4.
  econstructor; eauto. constructor. now apply dspan_le in V4.
Qed.

Lemma valid_0 data T r : In r (g_rules T) -> valid data T 0 (Item T r 0 0).
Proof.
  intro I. repeat split; cbn [it_start it_nt it_rl it_pos firstn]; auto; try lia; constructor. lia.
Qed.

(** * Adding items *)

Definition grows (l l' : list (item G)) : Prop := exists e, l' = l ++ e.

Lemma grows_refl l : grows l l.
Proof. exists []. now rewrite app_nil_r. Qed.

Lemma grows_trans a b c : grows a b -> grows b c -> grows a c.
Proof. intros [e ->] [e' ->]. exists (e ++ e'). now rewrite app_assoc. Qed.

Lemma grows_in a b it : grows a b -> In it a -> In it b.
Proof. intros [e ->] I. apply in_or_app. now left. Qed.

Lemma grows_nth a b j it : grows a b -> nth_error a j = Some it -> nth_error b j = Some it.
Proof.
  intros [e ->] E. rewrite nth_error_app1; auto. apply nth_error_Some. congruence.
Qed.

Lemma mem_item_In it items : mem_item it items = true <-> In it items.
Proof. unfold mem_item. destruct (in_dec item_dec it items); split; auto; discriminate. Qed.

Lemma add_item_grows items it : grows items (add_item items it).
Proof. unfold add_item. destruct (mem_item it items); [apply grows_refl|now exists [it]]. Qed.

Lemma add_item_in items it : In it (add_item items it).
Proof.
  unfold add_item. destruct (mem_item it items) eqn:E; [now apply mem_item_In|].
  apply in_or_app. right. now left.
Qed.

Lemma add_item_Forall (P : item G -> Prop) items it :
  Forall P items -> P it -> Forall P (add_item items it).
Proof.
  intros. unfold add_item. destruct (mem_item it items); auto. apply Forall_app. auto.
Qed.

Lemma add_item_NoDup items it : NoDup items -> NoDup (add_item items it).
Proof.
  intros H. unfold add_item. destruct (mem_item it items) eqn:E; auto.
  apply NoDup_rev in H. rewrite <- (rev_involutive (items ++ [it])). apply NoDup_rev.
  rewrite rev_app_distr. simpl. constructor; auto.
  rewrite <- in_rev. intro I. apply mem_item_In in I. congruence.
Qed.

Lemma add_items_grows new : forall items, grows items (add_items items new).
Proof.
  induction new as [|x new IH]; intro items; [apply grows_refl|].
  eapply grows_trans; [apply add_item_grows|apply IH].
Qed.

Lemma add_items_in new : forall items it, In it new -> In it (add_items items new).
Proof.
  induction new as [|x new IH]; intros items it []; cbn [add_items fold_left].
  - subst. eapply grows_in; [apply add_items_grows|apply add_item_in].
  - now apply IH.
Qed.

Lemma add_items_Forall (P : item G -> Prop) new : forall items,
  Forall P items -> Forall P new -> Forall P (add_items items new).
Proof.
  induction new as [|x new IH]; intros items H1 H2; [assumption|].
  inversion H2; subst. apply IH; auto. now apply add_item_Forall.
Qed.

Lemma add_items_NoDup new : forall items, NoDup items -> NoDup (add_items items new).
Proof.
  induction new as [|x new IH]; intros items H; [assumption|]. apply IH. now apply add_item_NoDup.
Qed.

(** * Completion *)

Lemma waits_next A it : waits A it = true <-> next_sym it = Some (Nt A).
Proof.
  unfold waits. destruct (next_sym it) as [[bits|B]|]; split; intro H; try discriminate.
  - destruct (nt_dec A B); [now subst|discriminate].
  - injection H as ->. destruct (nt_dec A A); congruence.
Qed.

Lemma complete_sound f : forall data T prev A c i k items l,
  complete f prev A c items = Done l ->
  dspan data [Nt A] k i ->
  match prev with Some p => Forall (valid data T k) p | None => k = i end ->
  Forall (valid data T i) items -> NoDup items ->
  grows items l /\ Forall (valid data T i) l /\ NoDup l.
Proof.
  induction f as [|f IH]; intros data T prev A c i k items l H D P V ND; [discriminate|].
  cbn [complete] in H.
  destruct (nth_error _ c) as [it|] eqn:E.
  - apply nth_error_In in E. apply filter_In in E. destruct E as [E W]. apply waits_next in W.
    assert (V' : valid data T i (advance it)).
    { destruct prev as [p|].
      - rewrite Forall_forall in P. eapply valid_advance; eauto.
      - subst k. rewrite Forall_forall in V. eapply valid_advance; eauto. }
    destruct (IH _ _ _ _ _ _ _ _ _ H D P (add_item_Forall V V') (add_item_NoDup _ ND)) as [G1 G2].
    split; auto. eapply grows_trans; [apply add_item_grows|exact G1].
  - injection H as <-. repeat split; auto. apply grows_refl.
Qed.

(** With a finished inventory, all waiting items are advanced. *)
Lemma complete_all f : forall p A c items l it,
  complete f (Some p) A c items = Done l ->
  forall n, nth_error (filter (waits A) p) n = Some it -> c <= n -> In (advance it) l.
Proof.
  induction f as [|f IH]; intros p A c items l it H n N L; [discriminate|].
  cbn [complete] in H. destruct (nth_error _ c) as [it'|] eqn:E.
  - destruct (Nat.eq_dec n c) as [->|NE].
    + assert (it' = it) by congruence. subst it'.
      clear - H. assert (X : grows (add_item items (advance it)) l).
      { revert H. generalize (add_item items (advance it)), (S c). clear.
        induction f as [|f IH]; intros l0 c H; [discriminate|]. cbn [complete] in H.
        destruct (nth_error _ c); [|injection H as <-; apply grows_refl].
        eapply grows_trans; [apply add_item_grows|eapply IH; eauto]. }
      eapply grows_in; [exact X|apply add_item_in].
    + eapply IH; eauto. lia.
  - apply nth_error_None in E. assert (n < List.length (filter (waits A) p)); [|lia].
    apply nth_error_Some. congruence.
Qed.

(** * One turn of the inner loop *)

Definition handled data (chart : list (list (item G))) (i : nat) it items next : Prop :=
  match next_sym it with
  | None =>
      it_start it < i -> forall it', In it' (nth (it_start it) chart []) ->
      next_sym it' = Some (Nt (it_nt it)) -> In (advance it') items
  | Some (Nt B) =>
      (generates B [] -> In (advance it) items)
      /\ forall r, In r (g_rules B) -> In (Item B r 0 i) items
  | Some (Tm bits) =>
      forall c, nth_error data i = Some c -> tmatch bits c = true -> In (advance it) next
  end.

Lemma handled_grows data chart i it items next items' next' :
  handled data chart i it items next -> grows items items' -> grows next next' ->
  handled data chart i it items' next'.
Proof.
  unfold handled. intros H G1 G2. destruct (next_sym it) as [[bits|B]|].
  - intros. eapply grows_in; eauto.
  - destruct H as [H1 H2]. split; intros; eapply grows_in; eauto.
  - intros. eapply grows_in; eauto.
Qed.

Record inv data T i items next : Prop := Inv {
  inv_valid : Forall (valid data T i) items;
  inv_next : Forall (valid data T (S i)) next;
  inv_nodup : NoDup items;
  inv_nodup' : NoDup next
}.

Definition chart_valid data T (chart : list (list (item G))) : Prop :=
  forall k, Forall (valid data T k) (nth k chart []).

Lemma process_sound f data T i chart it items next items' next' :
  process f i (nth_error data i) chart it items next = Done (items', next') ->
  chart_valid data T chart -> In it items -> inv data T i items next ->
  grows items items' /\ grows next next' /\ inv data T i items' next'
  /\ handled data chart i it items' next'.
Proof.
  intros H CV I [V1 V2 N1 N2]. pose proof (proj1 (Forall_forall _ _) V1 _ I) as V.
  unfold process in H. unfold handled. destruct (next_sym it) as [[bits|B]|] eqn:E.
  - destruct (nth_error data i) as [c|] eqn:Ec.
    + destruct (tmatch bits c) eqn:M; injection H as <- <-.
      * assert (V' : valid data T (S i) (advance it)).
        { eapply valid_advance; eauto. econstructor; eauto. constructor.
          enough (i < List.length data) by lia. apply nth_error_Some. congruence. }
        repeat split; auto using grows_refl, add_item_grows, add_item_NoDup.
        -- now apply add_item_Forall.
        -- intros. apply add_item_in.
      * repeat split; auto using grows_refl. intros c' E' M'. injection E' as <-. congruence.
    + injection H as <- <-. repeat split; auto using grows_refl. discriminate.
  - obinds H. injection H as <- <-. apply nullable_spec in H1.
    set (items1 := if a then add_item items (advance it) else items).
    assert (X : grows items items1 /\ Forall (valid data T i) items1 /\ NoDup items1).
    { unfold items1. destruct a; [|repeat split; auto using grows_refl].
      assert (V' : valid data T i (advance it)).
      { eapply valid_advance; eauto. destruct (proj1 H1 eq_refl) as [r [I1 D1]].
        econstructor; eauto.
        - pose proof (valid_start V) as [_ L].
          pose proof (derives_dspan D1 (firstn i data) (skipn i data)) as D.
          simpl in D. rewrite firstn_skipn, firstn_length, Nat.min_l, Nat.add_0_r in D by lia.
          exact D.
        - constructor. now apply valid_start in V. }
      repeat split; auto using add_item_grows, add_item_NoDup. now apply add_item_Forall. }
    destruct X as [X1 [X2 X3]].
    repeat split; auto using grows_refl, add_items_NoDup.
    + eapply grows_trans; [exact X1|apply add_items_grows].
    + apply add_items_Forall; auto. apply Forall_forall. intros it' I'.
      apply in_map_iff in I'. destruct I' as [r [<- I']]. eapply valid_predict; eauto.
    + intro Gn. apply H1 in Gn. subst a. unfold items1.
      eapply grows_in; [apply add_items_grows|apply add_item_in].
    + intros r I'. apply add_items_in. now apply (in_map (fun r => Item B r 0 i)).
  - obinds H. injection H as <- <-. pose proof (valid_completed V E) as D.
    destruct (@complete_sound f data T _ _ 0 i (it_start it) items a H1 D) as [X1 [X2 X3]]; auto.
    + destruct (it_start it =? i) eqn:Q; [apply Nat.eqb_eq in Q; assumption|apply CV].
    + repeat split; auto using grows_refl. intros L it' I' W.
      destruct (it_start it =? i) eqn:Q; [apply Nat.eqb_eq in Q; lia|].
      assert (I2 : In it' (filter (waits (it_nt it)) (nth (it_start it) chart []))).
      { apply filter_In. split; auto. now apply waits_next. }
      apply In_nth_error in I2. destruct I2 as [n I2]. eapply complete_all; eauto. lia.
Qed.

Lemma inner_sound f : forall data T i chart j items next items' next',
  inner_loop f i (nth_error data i) chart j items next = Done (items', next') ->
  chart_valid data T chart -> inv data T i items next ->
  (forall n it, n < j -> nth_error items n = Some it -> handled data chart i it items next) ->
  grows items items' /\ inv data T i items' next'
  /\ forall it, In it items' -> handled data chart i it items' next'.
Proof.
  induction f as [|f IH]; intros data T i chart j items next items' next' H CV IV HD; [discriminate|].
  cbn [inner_loop] in H. destruct (nth_error items j) as [it|] eqn:E.
  - apply obind_done in H. destruct H as [[items1 next1] [H1 H]]. cbn [fst snd] in H.
    pose proof (nth_error_In _ _ E) as I.
    destruct (process_sound H1 CV I IV) as [G1 [G2 [IV1 HD1]]].
    destruct (IH _ _ _ _ _ _ _ _ _ H CV IV1) as [G3 [IV2 HD2]].
    + intros n it' L E'. destruct (Nat.eq_dec n j) as [->|NE].
      * rewrite (grows_nth G1 E) in E'. injection E' as <-. assumption.
      * assert (E2 : nth_error items n = Some it').
        { destruct G1 as [e ->]. rewrite nth_error_app1 in E'; auto.
          assert (j < List.length items) by (apply nth_error_Some; congruence). lia. }
        eapply handled_grows; [eapply HD; eauto; lia|assumption|assumption].
    + repeat split; auto; try apply IV2. eapply grows_trans; eauto.
  - injection H as <- <-. repeat split; auto using grows_refl; try apply IV.
    intros it I. apply In_nth_error in I. destruct I as [n I].
    apply (HD n); auto. apply nth_error_None in E.
    assert (n < List.length items) by (apply nth_error_Some; congruence). lia.
Qed.

(** * The finished chart *)

Lemma nth_snoc_lt {X} (l : list X) x d k : k < List.length l -> nth k (l ++ [x]) d = nth k l d.
Proof. intro. now apply app_nth1. Qed.

Lemma nth_snoc_eq {X} (l : list X) x d : nth (List.length l) (l ++ [x]) d = x.
Proof. rewrite app_nth2 by lia. now rewrite Nat.sub_diag. Qed.

Lemma nth_over {X} (l : list X) d k : List.length l <= k -> nth k l d = d.
Proof. apply nth_overflow. Qed.

Lemma handled_chart data chart chart' i it items next :
  handled data chart i it items next -> (forall k, k < i -> nth k chart' [] = nth k chart []) ->
  handled data chart' i it items next.
Proof.
  unfold handled. intros H E. destruct (next_sym it) as [[bits|B]|]; auto.
  intros L it' I. rewrite E in I by assumption. now apply H.
Qed.

Definition chart_handled data (chart : list (list (item G))) : Prop :=
  forall k it, In it (nth k chart []) -> handled data chart k it (nth k chart []) (nth (S k) chart []).

Lemma outer_sound f data T : forall rest i chart items chart' stop,
  outer_loop f i rest chart items = Done (chart', stop) ->
  rest = skipn i data -> i <= List.length data -> List.length chart = i ->
  chart_valid data T (chart ++ [items]) -> NoDup items ->
  Forall (@NoDup _) chart ->
  (forall k it, k < i -> In it (nth k (chart ++ [items]) []) ->
     handled data (chart ++ [items]) k it (nth k (chart ++ [items]) []) (nth (S k) (chart ++ [items]) [])) ->
  chart_valid data T chart' /\ chart_handled data chart'
  /\ (exists e, nth i chart' [] = items ++ e)
  /\ (forall k, k < i -> nth k chart' [] = nth k chart [])
  /\ Forall (@NoDup _) chart'
  /\ stop <= List.length data
  /\ (stop < List.length data -> nth stop chart' [] = [])
  /\ (forall k, stop < k -> nth k chart' [] = []).
Proof.
  induction rest as [|c rest IH]; intros i chart items chart' stop H ER Li Lc CV ND NDs HD;
    cbn [outer_loop] in H.
  - assert (Ei : i = List.length data).
    { assert (List.length (skipn i data) = 0) by (now rewrite <- ER). rewrite skipn_length in H0. lia. }
    assert (Et : nth_error data i = None) by (apply nth_error_None; lia).
    assert (X : exists items' next', chart' = chart ++ [items'; next'] /\ stop = i
              /\ next' = [] /\ grows items items' /\ Forall (valid data T i) items' /\ NoDup items'
              /\ forall it, In it items' -> handled data chart i it items' next').
    { destruct items as [|it0 items0] eqn:EI.
      - injection H as <- <-. exists [], []. repeat split; auto using grows_refl. easy.
      - rewrite <- EI in *. clear EI. apply obind_done in H. destruct H as [[items' next'] [H1 H]].
        cbn [fst snd] in H. injection H as <- <-. change (hd_error []) with (@None N) in H1.
        rewrite <- Et in H1.
        assert (IV : inv data T i items []).
        { constructor; auto. - specialize (CV i). rewrite <- Lc, nth_snoc_eq in CV. now rewrite Lc in CV.
          - constructor. }
        assert (CV' : chart_valid data T chart).
        { intro k. destruct (Nat.lt_ge_cases k i).
          - specialize (CV k). rewrite nth_snoc_lt in CV by lia. assumption.
          - rewrite nth_over by lia. constructor. }
        destruct (inner_sound H1 CV' IV) as [G1 [IV' HD']]; [intros; lia|].
        exists items', next'. repeat split; auto; try apply IV'.
        destruct next' as [|x next']; auto. exfalso.
        pose proof (Forall_inv (inv_next IV')) as V. apply valid_start in V. lia. }
    destruct X as [items' [next' [-> [-> [-> [G1 [V' [ND' HD']]]]]]]].
    assert (N1 : forall k, k < i -> nth k (chart ++ [items'; []]) [] = nth k chart []).
    { intros k L. apply app_nth1. lia. }
    assert (N2 : nth i (chart ++ [items'; []]) [] = items').
    { rewrite app_nth2 by lia. replace (i - List.length chart) with 0 by lia. reflexivity. }
    assert (N3 : forall k, i < k -> nth k (chart ++ [items'; []]) [] = []).
    { intros k L. rewrite app_nth2 by lia. destruct (k - List.length chart) as [|[|m]] eqn:Q; try lia; auto.
      simpl. destruct m; reflexivity. }
    assert (M1 : forall k, k < i -> nth k (chart ++ [items]) [] = nth k chart []).
    { intros k L. apply app_nth1. lia. }
    assert (M2 : nth i (chart ++ [items]) [] = items).
    { rewrite <- Lc. apply nth_snoc_eq. }
    split; [|split; [|split; [|split; [|split; [|split; [|split]]]]]].
    + intro k. destruct (Nat.lt_trichotomy k i) as [L|[->|L]].
      * rewrite N1 by lia. specialize (CV k). rewrite M1 in CV by lia. assumption.
      * rewrite N2. assumption.
      * rewrite N3 by lia. constructor.
    + intros k it I. destruct (Nat.lt_trichotomy k i) as [L|[->|L]].
      * rewrite N1 in * by lia. specialize (HD k it L). rewrite M1 in HD by lia. specialize (HD I).
        eapply handled_chart; [|intros k0 L0; rewrite N1 by lia; symmetry; apply M1; lia].
        eapply handled_grows; [exact HD|apply grows_refl|].
        destruct (Nat.eq_dec (S k) i) as [Q|Q].
        -- rewrite Q, M2, N2. assumption.
        -- rewrite M1, N1 by lia. apply grows_refl.
      * rewrite N2 in *. rewrite N3 by lia. eapply handled_chart; [apply HD'; assumption|].
        intros. now apply N1.
      * rewrite N3 in I by lia. destruct I.
    + rewrite N2. exact G1.
    + exact N1.
    + apply Forall_app. split; auto. repeat constructor; auto.
    + lia.
    + lia.
    + exact N3.
  - assert (Lt : i < List.length data).
    { assert (E : List.length (skipn i data) = S (List.length rest)) by (now rewrite <- ER).
      rewrite skipn_length in E. lia. }
    assert (Ec : nth_error data i = Some c /\ rest = skipn (S i) data).
    { destruct (nth_error data i) as [c'|] eqn:Q.
      - pose proof (skipn_nth_error Q) as SK. rewrite <- ER in SK. injection SK as -> ->. auto.
      - apply nth_error_None in Q. lia. }
    destruct Ec as [Ec Er].
    assert (M1 : forall k, k < i -> nth k (chart ++ [items]) [] = nth k chart []).
    { intros k L. apply app_nth1. lia. }
    assert (M2 : nth i (chart ++ [items]) [] = items).
    { rewrite <- Lc. apply nth_snoc_eq. }
    destruct items as [|it0 items0] eqn:EI.
    + injection H as <- <-.
      assert (N1 : forall k, k < i -> nth k (chart ++ [[]; []]) [] = nth k chart []).
      { intros k L. apply app_nth1. lia. }
      assert (N2 : forall k, i <= k -> nth k (chart ++ [[]; []]) [] = []).
      { intros k L. rewrite app_nth2 by lia. destruct (k - List.length chart) as [|[|[|m]]]; reflexivity. }
      split; [|split; [|split; [|split; [|split; [|split; [|split]]]]]].
      * intro k. destruct (Nat.lt_ge_cases k i) as [L|L].
        -- rewrite N1 by lia. specialize (CV k). rewrite M1 in CV by lia. assumption.
        -- rewrite N2 by lia. constructor.
      * intros k it I. destruct (Nat.lt_ge_cases k i) as [L|L].
        -- rewrite N1 in * by lia. specialize (HD k it L). rewrite M1 in HD by lia. specialize (HD I).
           eapply handled_chart; [|intros k0 L0; rewrite N1 by lia; symmetry; apply M1; lia].
           eapply handled_grows; [exact HD|apply grows_refl|].
           destruct (Nat.eq_dec (S k) i) as [Q|Q].
           ++ rewrite Q, M2, N2 by lia. apply grows_refl.
           ++ rewrite M1, N1 by lia. apply grows_refl.
        -- rewrite N2 in I by lia. destruct I.
      * exists []. now rewrite N2 by lia.
      * exact N1.
      * apply Forall_app. split; [assumption|repeat constructor].
      * lia.
      * intros. apply N2. lia.
      * intros. apply N2. lia.
    + rewrite <- EI in *. clear EI it0 items0. apply obind_done in H.
      destruct H as [[items' next'] [H1 H]]. cbn [fst snd hd_error] in *.
      rewrite <- Ec in H1.
      assert (IV : inv data T i items []).
      { pose proof (CV i) as CVi. rewrite M2 in CVi. constructor; auto; constructor. }
      assert (CV' : chart_valid data T chart).
      { intro k. destruct (Nat.lt_ge_cases k i).
        - specialize (CV k). rewrite nth_snoc_lt in CV by lia. assumption.
        - rewrite nth_over by lia. constructor. }
      destruct (inner_sound H1 CV' IV) as [G1 [IV' HD']]; [intros; lia|].
      assert (P1 : forall k, k < i -> nth k ((chart ++ [items']) ++ [next']) [] = nth k chart []).
      { intros k L. rewrite app_nth1 by (rewrite app_length; simpl; lia). apply app_nth1. lia. }
      assert (P2 : nth i ((chart ++ [items']) ++ [next']) [] = items').
      { rewrite app_nth1 by (rewrite app_length; simpl; lia). rewrite <- Lc. apply nth_snoc_eq. }
      assert (P3 : nth (S i) ((chart ++ [items']) ++ [next']) [] = next').
      { replace (S i) with (List.length (chart ++ [items'])) by (rewrite app_length; simpl; lia).
        apply nth_snoc_eq. }
      destruct (IH (S i) (chart ++ [items']) next' chart' stop H) as [R1 [R2 [R3 [R4 [R5 R6]]]]]; auto.
      * rewrite app_length. simpl. lia.
      * intro k. destruct (Nat.lt_trichotomy k i) as [L|[->|L]].
        -- rewrite P1 by lia. apply CV'.
        -- rewrite P2. apply IV'.
        -- destruct (Nat.eq_dec k (S i)) as [->|Q].
           ++ rewrite P3. apply IV'.
           ++ rewrite nth_over; [constructor|]. rewrite !app_length. simpl. lia.
      * apply IV'.
      * apply Forall_app. split; auto. constructor; auto. apply IV'.
      * intros k it L I. destruct (Nat.eq_dec k i) as [->|NE].
        -- rewrite P2, P3 in *. eapply handled_chart; [apply HD'; assumption|]. intros. now apply P1.
        -- assert (Lk : k < i) by lia. rewrite (P1 k Lk) in *.
           specialize (HD k it Lk). rewrite M1 in HD by lia. specialize (HD I).
           eapply handled_chart; [|intros k0 L0; rewrite P1 by lia; symmetry; apply M1; lia].
           eapply handled_grows; [exact HD|apply grows_refl|].
           destruct (Nat.eq_dec (S k) i) as [Q|Q].
           ++ rewrite Q, M2, P2. assumption.
           ++ rewrite M1, P1 by lia. apply grows_refl.
      * split; [assumption|]. split; [assumption|]. split; [|split; [|split; assumption]].
        -- rewrite R4 by lia. rewrite <- Lc, nth_snoc_eq. exact G1.
        -- intros k L. rewrite R4 by lia. rewrite app_nth1 by lia. reflexivity.
Qed.

Lemma build_chart_sound f data T chart stop :
  build_chart f data T = Done (chart, stop) ->
  chart_valid data T chart /\ chart_handled data chart
  /\ (forall r, In r (g_rules T) -> In (Item T r 0 0) (nth 0 chart []))
  /\ Forall (@NoDup _) chart
  /\ stop <= List.length data
  /\ (stop < List.length data -> nth stop chart [] = [])
  /\ (forall k, stop < k -> nth k chart [] = []).
Proof.
  intro H. unfold build_chart in H.
  assert (VS : Forall (valid data T 0) (seed T)).
  { apply add_items_Forall; [constructor|]. apply Forall_forall. intros it I.
    apply in_map_iff in I. destruct I as [r [<- I]]. now apply valid_0. }
  destruct (@outer_sound f data T data 0 [] (seed T) chart stop H) as [R1 [R2 [R3 [R4 [R5 R6]]]]];
    auto; try lia.
  - intro k. destruct k; [exact VS|]. simpl. destruct k; constructor.
  - apply add_items_NoDup. constructor.
  - split; [assumption|]. split; [assumption|]. split; [|split; assumption].
    intros r I. destruct R3 as [e ->]. apply in_or_app. left. apply add_items_in.
    now apply (in_map (fun r => Item T r 0 0)).
Qed.

(** * Completeness of the chart *)

Lemma chart_complete data (chart : list (list (item G))) :
  chart_handled data chart ->
  forall ss j i, dspan data ss j i ->
  forall it, In it (nth j chart []) ->
    (exists pre rest, g_rhs (it_rl it) = pre ++ ss ++ rest /\ List.length pre = it_pos it) ->
    In (Item (it_nt it) (it_rl it) (it_pos it + List.length ss) (it_start it)) (nth i chart []).
Proof.
  intros CH ss j i D. induction D as [k L|bits c ss k i E M D IH|A r ss k j i Ir D1 IH1 D2 IH2];
    intros it I [pre [rest [ER EL]]].
  - simpl. rewrite Nat.add_0_r. destruct it; exact I.
  - assert (N : next_sym it = Some (Tm bits)).
    { unfold next_sym. rewrite ER, nth_error_app2 by lia. rewrite EL, Nat.sub_diag. reflexivity. }
    pose proof (CH _ _ I) as H. unfold handled in H. rewrite N in H. specialize (H c E M).
    specialize (IH _ H). cbn [advance it_rl it_nt it_pos it_start] in IH.
    simpl List.length. rewrite Nat.add_succ_r, <- Nat.add_succ_l. apply IH.
    exists (pre ++ [Tm bits]), rest. split; [|rewrite app_length; simpl; lia].
    rewrite ER. now rewrite <- app_assoc.
  - assert (N : next_sym it = Some (Nt A)).
    { unfold next_sym. rewrite ER, nth_error_app2 by lia. rewrite EL, Nat.sub_diag. reflexivity. }
    pose proof (CH _ _ I) as H. unfold handled in H. rewrite N in H. destruct H as [Hn Hp].
    assert (Adv : In (advance it) (nth j chart [])).
    { pose proof (dspan_le D1) as L. destruct (Nat.eq_dec k j) as [->|NE].
      - apply Hn. exists r. split; auto. apply dspan_derives in D1. now rewrite slice_nil in D1.
      - specialize (Hp r Ir). specialize (IH1 _ Hp). cbn [it_rl it_nt it_pos it_start] in IH1.
        assert (I1 : In (Item A r (0 + List.length (g_rhs r)) k) (nth j chart [])).
        { apply IH1. exists [], []. rewrite app_nil_r. auto. }
        pose proof (CH _ _ I1) as H. unfold handled in H.
        assert (N1 : next_sym (Item A r (0 + List.length (g_rhs r)) k) = None).
        { unfold next_sym. cbn [it_rl it_pos]. apply nth_error_None. lia. }
        rewrite N1 in H. cbn [it_start it_nt] in H. apply H; auto. lia. }
    specialize (IH2 _ Adv). cbn [advance it_rl it_nt it_pos it_start] in IH2.
    simpl List.length. rewrite Nat.add_succ_r, <- Nat.add_succ_l. apply IH2.
    exists (pre ++ [Nt A]), rest. split; [|rewrite app_length; simpl; lia].
    rewrite ER. now rewrite <- app_assoc.
Qed.

Lemma predicted_in_chart f data T chart stop :
  build_chart f data T = Done (chart, stop) ->
  forall k A, predicted data T k A -> forall r, In r (g_rules A) -> In (Item A r 0 k) (nth k chart []).
Proof.
  intros H. apply build_chart_sound in H. destruct H as [_ [CH [S0 _]]].
  induction 1 as [|k A r pos B i P IH Ir N D]; intros r' I'; [auto|].
  specialize (IH r Ir).
  pose proof (chart_complete CH D IH) as Q. cbn [it_rl it_nt it_pos it_start] in Q.
  assert (Lp : pos < List.length (g_rhs r)) by (apply nth_error_Some; congruence).
  rewrite firstn_length, Nat.min_l in Q by lia. simpl in Q.
  assert (I1 : In (Item A r pos k) (nth i chart [])).
  { apply Q. exists [], (skipn pos (g_rhs r)). simpl. now rewrite firstn_skipn. }
  pose proof (CH _ _ I1) as Hh. unfold handled, next_sym in Hh. cbn [it_rl it_pos] in Hh.
  rewrite N in Hh. now apply Hh.
Qed.

(** The chart holds exactly the supported items. *)
Lemma chart_exact f data T chart stop i it :
  build_chart f data T = Done (chart, stop) ->
  (In it (nth i chart []) <-> valid data T i it).
Proof.
  intro H. split.
  - intro I. apply build_chart_sound in H. destruct H as [CV _].
    specialize (CV i). rewrite Forall_forall in CV. now apply CV.
  - intros [V1 [V2 [V3 V4]]]. pose proof (predicted_in_chart H V1 V2) as I.
    apply build_chart_sound in H. destruct H as [_ [CH _]].
    pose proof (chart_complete CH V4 I) as Q. cbn [it_rl it_nt it_pos it_start] in Q.
    rewrite firstn_length, Nat.min_l in Q by lia. simpl in Q. destruct it as [A r pos k]. apply Q.
    exists [], (skipn pos (g_rhs r)). simpl. now rewrite firstn_skipn.
Qed.

End Items.
