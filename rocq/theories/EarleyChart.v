(** The chart: every item in it is supported by derivations, and every item
    supported by derivations is in it. *)
From Coq Require Import ZifyBool ZifyNat ZifyN.
From Verif Require Import Base Earley EarleySpec.
Open Scope nat_scope.
Unset Strict Implicit.

Section Chart.
Context {G : grammar}.
Implicit Types (A B : nt G) (it : item G) (items : list (item G)).

(** * Derivations over positions of a fixed input *)

Inductive dspan (data : str) : list (sym (nt G)) -> nat -> nat -> Prop :=
| dspan_nil k : k <= List.length data -> dspan data [] k k
| dspan_tm bits c ss k i :
    nth_error data k = Some c -> tmatch bits c = true ->
    dspan data ss (S k) i -> dspan data (Tm bits :: ss) k i
| dspan_nt A r ss k j i :
    In r (g_rules A) -> dspan data (g_rhs r) k j -> dspan data ss j i ->
    dspan data (Nt A :: ss) k i.

Lemma dspan_le data ss k i : dspan data ss k i -> k <= i /\ i <= List.length data.
Proof. induction 1; lia. Qed.

Lemma dspan_app data s1 s2 k j i :
  dspan data s1 k j -> dspan data s2 j i -> dspan data (s1 ++ s2) k i.
Proof.
  induction 1; intro H2; simpl; auto.
  - econstructor; eauto.
  - econstructor; eauto.
Qed.

Lemma dspan_split data s1 s2 k i :
  dspan data (s1 ++ s2) k i -> exists j, dspan data s1 k j /\ dspan data s2 j i.
Proof.
  revert k; induction s1 as [|x s1 IH]; intros k H; simpl in H.
  - exists k. split; auto. constructor. apply dspan_le in H. lia.
  - inversion H; subst.
    + apply IH in H6. destruct H6 as [j [H6 H7]]. exists j; split; auto. econstructor; eauto.
    + apply IH in H6. destruct H6 as [j' [H6 H7]]. exists j'; split; auto. econstructor; eauto.
Qed.

Lemma skipn_add {X} (l : list X) n m : skipn n (skipn m l) = skipn (m + n) l.
Proof.
  revert l; induction m as [|m IH]; intro l; simpl; [reflexivity|].
  destruct l; [now rewrite skipn_nil|apply IH].
Qed.

Lemma nth_error_firstn_lt {X} (l : list X) n k : k < n -> nth_error (firstn n l) k = nth_error l k.
Proof.
  revert l k; induction n as [|n IH]; intros l k H; [lia|].
  destruct l; [reflexivity|]. destruct k; [reflexivity|]. simpl. apply IH. lia.
Qed.

(** The string between two positions. *)
Definition slice (data : str) (k i : nat) : str := firstn (i - k) (skipn k data).

Lemma slice_nil data k : slice data k k = [].
Proof. unfold slice. now rewrite Nat.sub_diag. Qed.

Lemma skipn_nth_error (data : str) k c :
  nth_error data k = Some c -> skipn k data = c :: skipn (S k) data.
Proof.
  revert k; induction data as [|x data IH]; intros [|k] H; simpl in *; try congruence.
  now apply IH.
Qed.

Lemma slice_cons data k i c :
  nth_error data k = Some c -> k < i -> slice data k i = c :: slice data (S k) i.
Proof.
  intros H Hi. unfold slice. rewrite (skipn_nth_error H).
  replace (i - k) with (S (i - S k)) by lia. reflexivity.
Qed.

Lemma slice_app data k j i : k <= j -> j <= i -> slice data k j ++ slice data j i = slice data k i.
Proof.
  intros H1 H2. unfold slice.
  replace (i - k) with ((j - k) + (i - j)) by lia.
  rewrite <- (firstn_skipn (j - k) (firstn (j - k + (i - j)) (skipn k data))).
  rewrite firstn_firstn. rewrite Nat.min_l by lia. f_equal.
  rewrite skipn_firstn_comm.
  replace (j - k + (i - j) - (j - k)) with (i - j) by lia.
  rewrite skipn_add. f_equal. f_equal. lia.
Qed.

Lemma slice_length data k i : k <= i -> i <= List.length data -> List.length (slice data k i) = i - k.
Proof. intros. unfold slice. rewrite firstn_length, skipn_length. lia. Qed.

Lemma slice_all data : slice data 0 (List.length data) = data.
Proof. unfold slice. simpl. rewrite Nat.sub_0_r. apply firstn_all. Qed.

Lemma slice_prefix data k : slice data 0 k = firstn k data.
Proof. unfold slice. simpl. now rewrite Nat.sub_0_r. Qed.

Lemma dspan_derives data ss k i : dspan data ss k i -> derives ss (slice data k i).
Proof.
  induction 1.
  - rewrite slice_nil. constructor.
  - rewrite (slice_cons H). constructor; auto. apply dspan_le in H1. lia.
  - apply dspan_le in H0. apply dspan_le in H1 as H2'.
    rewrite <- (@slice_app data k j i) by lia. econstructor; eauto.
Qed.

Lemma derives_dspan ss w : derives ss w ->
  forall p v, dspan (p ++ w ++ v) ss (List.length p) (List.length p + List.length w).
Proof.
  induction 1; intros p v.
  - simpl. rewrite Nat.add_0_r. constructor. rewrite app_length. lia.
  - econstructor.
    + rewrite nth_error_app2 by lia. rewrite Nat.sub_diag. reflexivity.
    + assumption.
    + specialize (IHderives (p ++ [c]) v). rewrite <- app_assoc in IHderives.
      rewrite app_length in IHderives. simpl in *.
      replace (S (Datatypes.length p)) with (Datatypes.length p + 1) by lia.
      replace (Datatypes.length p + S (Datatypes.length w)) with (Datatypes.length p + 1 + Datatypes.length w) by lia.
      assumption.
  - econstructor; [eassumption| |].
    + rewrite <- app_assoc. apply IHderives1.
    + specialize (IHderives2 (p ++ u) v). rewrite app_length in IHderives2.
      rewrite app_length, Nat.add_assoc.
      replace (p ++ (u ++ w) ++ v) with ((p ++ u) ++ w ++ v); [assumption|].
      now rewrite <- !app_assoc.
Qed.

Lemma derives_dspan_all ss w : derives ss w -> dspan w ss 0 (List.length w).
Proof. intro H. pose proof (derives_dspan H [] []) as D. rewrite app_nil_r in D. exact D. Qed.

(** Only the part of the input between the positions matters. *)
Lemma dspan_ext data data' ss k i :
  dspan data ss k i -> firstn i data' = firstn i data -> i <= List.length data' -> dspan data' ss k i.
Proof.
  induction 1; intros E L.
  - constructor. assumption.
  - pose proof (dspan_le H1). econstructor; eauto.
    rewrite <- H. transitivity (nth_error (firstn i data') k).
    + rewrite nth_error_firstn_lt; [reflexivity|lia].
    + rewrite E. rewrite nth_error_firstn_lt; [reflexivity|lia].
  - pose proof (dspan_le H1). pose proof (dspan_le H0). econstructor; eauto.
    apply IHdspan1; [|lia].
    rewrite <- (Nat.min_l j i) by lia. rewrite <- !firstn_firstn. now rewrite E.
Qed.

(** * Nullable symbols *)

Lemma derives_app ss1 ss2 w1 w2 :
  derives ss1 w1 -> derives ss2 w2 -> @derives G (ss1 ++ ss2) (w1 ++ w2).
Proof.
  induction 1; intro H2; simpl; auto.
  - constructor; auto.
  - rewrite <- app_assoc. econstructor; eauto.
Qed.

Lemma derives_split ss1 ss2 w :
  @derives G (ss1 ++ ss2) w -> exists w1 w2, w = w1 ++ w2 /\ derives ss1 w1 /\ derives ss2 w2.
Proof.
  revert w; induction ss1 as [|x ss1 IH]; intros w H; simpl in H.
  - exists [], w. repeat split; auto. constructor.
  - inversion H; subst.
    + apply IH in H4. destruct H4 as [w1 [w2 [-> [D1 D2]]]].
      exists (c :: w1), w2. repeat split; auto. constructor; auto.
    + apply IH in H5. destruct H5 as [w1 [w2 [-> [D1 D2]]]].
      exists (u ++ w1), w2. split; [now rewrite app_assoc|]. split; auto. econstructor; eauto.
Qed.

Lemma generates_derives A w : generates A w <-> derives [Nt A] w.
Proof.
  split.
  - intros [r [H1 H2]]. rewrite <- (app_nil_r w). econstructor; eauto. constructor.
  - intro H. inversion H; subst. inversion H5; subst. rewrite app_nil_r. exists r. auto.
Qed.

Lemma derives_nt_inv A ss w : derives (Nt A :: ss) w ->
  exists u v, w = u ++ v /\ generates A u /\ derives ss v.
Proof. intro H. inversion H; subst. exists u, w0. repeat split; auto. now exists r. Qed.

Lemma derives_nt_null A ss : derives (Nt A :: ss) [] -> generates A [] /\ derives ss [].
Proof.
  intro H. apply derives_nt_inv in H. destruct H as [u [v [E [H1 H2]]]].
  symmetry in E. apply app_eq_nil in E. destruct E; subst. auto.
Qed.

Lemma nullable_spec f : forall A b, is_nullable f A = Done b -> (b = true <-> generates A []).
Proof.
  induction f as [|f IH]; intros A b H; [discriminate|].
  cbn [is_nullable] in H. unfold generates.
  set (alls := fix all_syms (ss : list (sym (nt G))) : out bool :=
                   match ss with
                   | [] => Done true
                   | Tm _ :: _ => Done false
                   | Nt B :: ss' =>
                       obind (is_nullable f B)
                             (fun b => if b then all_syms ss' else Done false)
                   end) in H.
  assert (AL : forall ss b, alls ss = Done b -> (b = true <-> derives ss [])).
  { induction ss as [|x ss IHs]; intros b0 H0; cbn [alls] in H0.
    - injection H0 as <-. split; auto. constructor.
    - destruct x as [bits|B].
      + injection H0 as <-. split; [discriminate|]. intro D. inversion D.
      + destruct (is_nullable f B) as [b1| |] eqn:E; try discriminate. cbn [obind] in H0.
        apply IH in E. destruct b1.
        * rewrite (IHs _ H0). split; intro D.
          -- assert (E1 : generates B []) by (now apply E). destruct E1 as [r [I1 D1]].
             change (@nil N) with (@nil N ++ []). econstructor; eauto.
          -- now apply derives_nt_null in D.
        * injection H0 as <-. split; [discriminate|]. intro D. apply E.
          now apply derives_nt_null in D. }
  revert b H. induction (g_rules A) as [|r rs IHr]; intros b H.
  - injection H as <-. split; [discriminate|]. intros [r [[] _]].
  - destruct (alls (g_rhs r)) as [b1| |] eqn:E; try discriminate. cbn [obind] in H.
    apply AL in E. destruct b1.
    + injection H as <-. split; auto. intros _. exists r. split; [now left|]. now apply E.
    + rewrite (IHr _ H). split; intros [r' [I D]].
      * exists r'. split; [now right|assumption].
      * destruct I as [<-|I]; [|now exists r']. apply E in D. discriminate.
Qed.

End Chart.
