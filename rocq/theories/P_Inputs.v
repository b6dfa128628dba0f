(** Properties C39 to C42: files of captured traffic are turned into exchanges
    without loss. *)
From Coq Require Import ZifyBool ZifyNat ZifyN Permutation Sorted.
From Verif Require Import Base Text Structure P_Util Stream Framing FramingTop P_FramingRuns Inputs InputsProofs.
Open Scope nat_scope.
Unset Strict Implicit.

(** * C39: interleaving ([interleaving] is defined in InputsProofs.v) *)

Section Lanes.
Context {E : Type}.
Variable own_time : E -> clock.
Definition lanes_of (seqs : list (source E * option Z)) : list (lane E) :=
  map (fun x => mkLane (fst x) (Some (snd x, None))) seqs.
Lemma lanes_contents seqs : map contents (lanes_of seqs) = map (fun x => s_items (fst x)) seqs.
Proof. unfold lanes_of. rewrite map_map. reflexivity. Qed.
Lemma rearrange_runs seqs : runs own_time (lanes_of seqs) (fst (rearrange_by_time own_time seqs)) (snd (rearrange_by_time own_time seqs)).
Proof. apply loop_runs. unfold lanes_of. lia. Qed.
End Lanes.

(** C39.  Whatever the connections produce and whatever times are known, the
    result is an interleaving of what they produced: nothing is added, lost, or
    reordered within a connection; if it is cut short by an exception, this
    holds of a beginning of each connection.  Exceptions come only from the
    connections themselves, from times that do not fit into a datetime, or from
    a connection without exchanges. *)
Theorem C39_interleaving : forall (E : Type) (own_time : E -> clock) (seqs : list (source E * option Z)),
  let out := fst (rearrange_by_time own_time seqs) in
  let h := snd (rearrange_by_time own_time seqs) in
  (exists parts, Forall2 prefix_of parts (map (fun x => s_items (fst x)) seqs) /\ interleaving parts out)
  /\ (h = Finished -> interleaving (map (fun x => s_items (fst x)) seqs) out)
  /\ h <> OutOfFuel
  /\ ((forall src hint, In (src, hint) seqs ->
         s_fails src = false /\ s_items src <> [] /\ forall e, In e (s_items src) -> own_time e <> Overflows) ->
      h = Finished).
Proof.
  intros E own_time seqs. cbv zeta. pose proof (rearrange_runs own_time seqs) as R. split; [|split; [|split]].
  - pose proof (runs_prefix R) as P. now rewrite lanes_contents in P.
  - intro H. rewrite H in R. apply runs_full in R. now rewrite lanes_contents in R.
  - intro H. rewrite H in R. clear H. revert R. generalize (fst (rearrange_by_time own_time seqs)) (lanes_of seqs). intros out lanes R.
    remember OutOfFuel as h eqn:Eh. induction R as [lanes ys h S|]; subst; [|auto]. inversion S; congruence.
  - intro H. apply (runs_safe R). apply Forall_forall. intros l Hl. apply in_map_iff in Hl. destruct Hl as [[src hint] [<- Hi]].
    destruct (H src hint Hi) as (H1 & H2 & H3). split; [assumption|]. split; [assumption|]. cbn. intros t _. assumption.
Qed.
Print Assumptions C39_interleaving.

(** An interleaving has all elements of all lists, with their order in each. *)
Theorem C39_interleaving_meaning : forall (E : Type) (ls : list (list E)) out, interleaving ls out ->
  Permutation out (List.concat ls)
  /\ forall i l, nth_error ls i = Some l -> exists mask, List.length mask = List.length out
       /\ l = map snd (filter fst (combine mask out)).
Proof.
  intros E ls out H. induction H as [ls D|ls i e l out Hn _ [IH1 IH2]].
  - split.
    + replace (List.concat ls) with (@nil E); [constructor|]. induction D as [|x ls -> D IH]; [reflexivity|exact IH].
    + intros i l Hn. exists []. split; [reflexivity|]. rewrite Forall_forall in D. apply D. eapply nth_error_In. eassumption.
  - split.
    + transitivity (e :: List.concat (replace i l ls)); [now constructor|]. clear - Hn. revert i Hn.
      induction ls as [|x ls IH]; intros [|i] Hn; try discriminate; cbn in *.
      * inversion Hn; subst. reflexivity.
      * etransitivity; [apply Permutation_middle|]. apply Permutation_app_head. now apply IH.
    + intros j l' Hj. destruct (Nat.eq_dec i j) as [<-|Ne].
      * rewrite Hn in Hj. inversion Hj; subst. destruct (IH2 i l) as (m & Hm & ->); [apply replace_nth; eapply nth_lt; eassumption|].
        exists (true :: m). split; [cbn; now rewrite Hm|]. reflexivity.
      * destruct (IH2 j l') as (m & Hm & ->).
        { clear - Ne Hj. revert i j Ne Hj. induction ls as [|x ls IH]; intros [|i] [|j] Ne Hj; cbn in *; try easy. apply IH; [lia|assumption]. }
        exists (false :: m). split; [cbn; now rewrite Hm|]. reflexivity.
Qed.
Print Assumptions C39_interleaving_meaning.

(** For pairs of files, the exception for a connection without exchanges does
    not occur: the result is complete unless reading a connection or computing
    a time raised an exception. *)
Theorem C39_files : forall (E : env) (own_time : item -> clock) (sniff complain : bool) (pairs : list (option file * option file * option Z)),
  (forall f1 f2 hint, In (f1, f2, hint) pairs -> f1 <> None \/ f2 <> None) ->
  let conns := map (fun p => connection E sniff complain (fst (fst p)) (snd (fst p))) pairs in
  let out := fst (path_pairs_input E own_time sniff complain pairs) in
  let h := snd (path_pairs_input E own_time sniff complain pairs) in
  (h = Finished -> interleaving (map s_items conns) out)
  /\ (h <> Raised_AttributeError)
  /\ (h <> Finished -> exists src, In src conns
        /\ (s_fails src = true \/ exists e, In e (s_items src) /\ own_time e = Overflows)).
Proof.
  intros E own_time sniff complain pairs H. cbv zeta. unfold path_pairs_input.
  set (seqs := map (fun p => (connection E sniff complain (fst (fst p)) (snd (fst p)), snd p)) pairs).
  assert (Ms : map (fun x => s_items (fst x)) seqs = map s_items (map (fun p => connection E sniff complain (fst (fst p)) (snd (fst p))) pairs)).
  { unfold seqs. rewrite !map_map. reflexivity. }
  assert (Ne : forall src hint, In (src, hint) seqs -> s_items src <> [] \/ s_fails src = true).
  { intros src hint Hi. apply in_map_iff in Hi. destruct Hi as [[[f1 f2] hint'] [Eq Hi]]. cbn in Eq. inversion Eq; subst. clear Eq.
    pose proof (H _ _ _ Hi) as Hf. clear Hi H seqs Ms. unfold connection.
    assert (P : forall pre (inb outb : option file), inb <> None \/ outb <> None ->
       s_items (opened E pre inb outb) <> [] \/ s_fails (opened E pre inb outb) = true).
    { intros pre inb outb Hio. unfold opened.
      set (r := parse_streams E (option_map (fun f => new_stream (snd f)) inb) (option_map (fun f => new_stream (snd f)) outb)).
      assert (C : how r = Framing.Finished -> yielded r <> []).
      { intro Hh. pose proof (@C16_at_least_one_exchange E (option_map snd inb) (option_map snd outb)) as C.
        unfold parse_bytes in C. unfold r in *. destruct inb as [[? ?]|], outb as [[? ?]|]; cbn in *; apply C; try assumption; try (left; discriminate); try (right; discriminate); tauto. }
      destruct inb, outb; try tauto; cbn [s_items s_fails]; (destruct (how r); [left; intro K; apply app_eq_nil in K; destruct K as [_ K]; apply map_eq_nil in K; now apply C|right; reflexivity..]). }
    destruct sniff; [|apply P; assumption].
    unfold sniff_direction.
    assert (Sw : f2 <> None \/ f1 <> None) by tauto.
    destruct (maybe sniff_outbound f1); [apply P; assumption|]. destruct (maybe sniff_outbound f2); [apply P; assumption|].
    destruct (maybe sniff_inbound f1); [apply P; assumption|]. destruct (maybe sniff_inbound f2); [apply P; assumption|].
    left. cbn. intro K. apply app_eq_nil in K. destruct K. discriminate. }
  pose proof (rearrange_runs own_time seqs) as R. destruct (C39_interleaving own_time seqs) as (_ & Fin & _ & Safe).
  cbv zeta in *. split; [|split].
  - intro Hh. rewrite <- Ms. now apply Fin.
  - refine (proj1 (runs_attribute R _)). apply Forall_forall. intros l Hl. apply in_map_iff in Hl. destruct Hl as [[src hint] [<- Hi]].
    cbn. intros t _ K. destruct (Ne _ _ Hi); [congruence|assumption].
  - intro Hh.
    assert (D : (forall src hint, In (src, hint) seqs -> s_fails src = false /\ s_items src <> [] /\ forall e, In e (s_items src) -> own_time e <> Overflows)
      \/ exists src hint, In (src, hint) seqs /\ (s_fails src = true \/ exists e, In e (s_items src) /\ own_time e = Overflows)).
    { clear - Ne. induction seqs as [|[src hint] seqs IH]; [left; easy|].
      destruct IH as [IH|(s1 & h1 & H1 & H2)]; [intros; eapply Ne; right; eassumption| |right; exists s1, h1; split; [now right|assumption]].
      destruct (s_fails src) eqn:Ef; [right; exists src, hint; split; [now left|now left]|].
      destruct (existsb (fun e => match own_time e with Overflows => true | _ => false end) (s_items src)) eqn:Ex.
      - apply existsb_exists in Ex. destruct Ex as [e [He Eo]]. right. exists src, hint. split; [now left|]. right. exists e. split; [assumption|].
        destruct (own_time e); easy.
      - left. intros s1 h1 [Eq|Hi]; [|eauto]. inversion Eq; subst. split; [assumption|]. split.
        + destruct (Ne s1 h1 (or_introl eq_refl)); [assumption|congruence].
        + intros e He Eo. assert (X : existsb (fun e => match own_time e with Overflows => true | _ => false end) (s_items s1) = true).
          { apply existsb_exists. exists e. rewrite Eo. auto. } congruence. }
    destruct D as [D|(src & hint & Hi & D)]; [now apply Safe in D|]. exists src. split; [|assumption].
    apply in_map_iff in Hi. destruct Hi as [p [Eq Hi]]. inversion Eq; subst. apply in_map_iff. exists p. auto.
Qed.
Print Assumptions C39_files.

(** The exception for a connection without exchanges, if there were one. *)
Theorem C39_empty_refuted : snd (rearrange_by_time (fun _ : nat => Unknown) [(mkSource [] false, None)]) = Raised_AttributeError.
Proof. reflexivity. Qed.
Print Assumptions C39_empty_refuted.

(** Exchanges are pairs of a time, if known, and a name. *)
Definition ex_time (e : option Z * nat) : clock := match fst e with Some t => Known t | None => Unknown end.
Example C39_example :
  rearrange_by_time ex_time
    [(mkSource [(Some 5%Z, 1); (None, 2); (Some 9%Z, 3)] false, Some 0%Z);
     (mkSource [(None, 4); (Some 6%Z, 5)] false, None)]
  = ([(None, 4); (Some 5%Z, 1); (None, 2); (Some 6%Z, 5); (Some 9%Z, 3)], Finished).
Proof. reflexivity. Qed.

(** * C40: order *)

Theorem C40_sorted : forall (E : Type) (own_time : E -> clock) (time : E -> Z) (seqs : list (source E * option Z)),
  (forall src hint, In (src, hint) seqs ->
     (forall e, In e (s_items src) -> own_time e = Known (time e))
     /\ StronglySorted Z.le (map time (s_items src))
     /\ forall t e, hint = Some t -> In e (s_items src) -> (t <= time e)%Z) ->
  StronglySorted Z.le (map time (fst (rearrange_by_time own_time seqs))).
Proof.
  intros E own_time time seqs H. apply (runs_sorted (rearrange_runs own_time seqs)).
  apply Forall_forall. intros l Hl. apply in_map_iff in Hl. destruct Hl as [[src hint] [<- Hi]].
  destruct (H src hint Hi) as (H1 & H2 & H3). split; [assumption|]. split; [assumption|]. cbn.
  destruct hint as [t|]; [|exact I]. apply Forall_forall. intros e He. now apply (H3 t e).
Qed.
Print Assumptions C40_sorted.

(** The condition on the start is needed: a connection said to start after its
    first exchange is read too late. *)
Theorem C40_late_start_refuted :
  fst (rearrange_by_time ex_time [(mkSource [(Some 5%Z, 1)] false, Some 8%Z); (mkSource [(Some 7%Z, 2)] false, None)])
  = [(Some 7%Z, 2); (Some 5%Z, 1)].
Proof. reflexivity. Qed.
Print Assumptions C40_late_start_refuted.
Example C40_example :
  fst (rearrange_by_time ex_time
    [(mkSource [(Some 5%Z, 1); (Some 9%Z, 3)] false, Some 5%Z);
     (mkSource [(Some 4%Z, 4); (Some 6%Z, 5)] false, None)])
  = [(Some 4%Z, 4); (Some 5%Z, 1); (Some 6%Z, 5); (Some 9%Z, 3)].
Proof. reflexivity. Qed.

(** * C41: pairing *)

Lemma conn_eqb_eq a b : conn_eqb a b = true <-> a = b.
Proof.
  destruct a as [x|], b as [y|]; cbn; split; intro H; try discriminate; try reflexivity.
  - apply N.eqb_eq in H. congruence.
  - inversion H. apply N.eqb_refl.
Qed.
Lemma key_eqb_eq a b : key_eqb a b = true <-> a = b.
Proof.
  destruct a as [[c x] y], b as [[c' x'] y']. cbn. rewrite !andb_true_iff, conn_eqb_eq, !str_eqb_eq.
  split; [intros [[-> ->] ->]; reflexivity|]. intro H. inversion H. auto.
Qed.
Lemma insert_perm x l : Permutation (insert x l) (x :: l).
Proof. induction l as [|y l IH]; cbn; [reflexivity|]. destruct (_ <=? _)%N; [reflexivity|]. rewrite IH. constructor. Qed.
Lemma sorted_perm l : Permutation (sorted l) l.
Proof. induction l as [|x l IH]; cbn; [constructor|]. rewrite insert_perm. now constructor. Qed.
Definition before (x y : info) : Prop := (i_sort x <= i_sort y)%N.
Lemma insert_sorted x l : StronglySorted before l -> StronglySorted before (insert x l).
Proof.
  induction l as [|y l IH]; intro S; cbn; [constructor; constructor|]. inversion S as [|? ? S' F]; subst.
  destruct (N.leb_spec (i_sort x) (i_sort y)) as [H|H].
  - constructor; [assumption|]. constructor; [exact H|]. rewrite Forall_forall in *. intros z Hz. unfold before in *. specialize (F z Hz). lia.
  - constructor; [now apply IH|]. apply Forall_forall. intros z Hz. apply (Permutation_in _ (insert_perm x l)) in Hz.
    rewrite Forall_forall in F. destruct Hz as [<-|Hz]; [unfold before; lia|auto].
Qed.
Lemma sorted_sorted l : StronglySorted before (sorted l).
Proof. induction l as [|x l IH]; cbn; [constructor|]. now apply insert_sorted. Qed.
Lemma put_new m x : ~ In (key x) (map key m) -> put m x = m ++ [x].
Proof.
  induction m as [|y m IH]; intro H; cbn [put app]; [reflexivity|]. destruct (key_eqb (key y) (key x)) eqn:E.
  - apply key_eqb_eq in E. destruct H. now left.
  - rewrite IH; [reflexivity|]. intro K. apply H. now right.
Qed.
Lemma map_distinct l : NoDup (map key l) -> streams_map l = sorted l.
Proof.
  intro H. unfold streams_map.
  assert (G : forall l m, NoDup (map key (m ++ l)) -> fold_left put l m = m ++ l).
  { clear. induction l as [|x l IH]; intros m H; cbn; [now rewrite app_nil_r|].
    rewrite put_new.
    - rewrite IH by now rewrite <- app_assoc. now rewrite <- app_assoc.
    - rewrite map_app in H. cbn in H. apply NoDup_remove_2 in H. intro K. apply H. apply in_or_app. now left. }
  apply (G (sorted l) []). cbn. eapply Permutation_NoDup; [|exact H]. apply Permutation_map, Permutation_sym, sorted_perm.
Qed.
Lemma pop_spec k m : match pop k m with
  | Some (y, m') => key y = k /\ exists a b, m = a ++ y :: b /\ m' = a ++ b
  | None => forall y, In y m -> key y <> k
  end.
Proof.
  induction m as [|x m IH]; cbn [pop]; [easy|]. destruct (key_eqb (key x) k) eqn:E.
  - apply key_eqb_eq in E. split; [assumption|]. now exists [], m.
  - assert (Ne : key x <> k) by (intro K; apply key_eqb_eq in K; congruence).
    destruct (pop k m) as [[y m']|].
    + destruct IH as (K & a & b & -> & ->). split; [assumption|]. now exists (x :: a), b.
    + intros y [<-|Hy]; auto.
Qed.
Lemma reverse_sym a b : key b = reverse_key a -> key a = reverse_key b.
Proof. unfold key, reverse_key. intro H. inversion H. reflexivity. Qed.

Definition both (p : info * option info) : list info := fst p :: match snd p with Some b => [b] | None => [] end.
Definition first_before (p q : info * option info) : Prop := before (fst p) (fst q).

Lemma recombine_loop_spec fuel : forall m, List.length m <= fuel -> NoDup (map key m) -> StronglySorted before m ->
  exists pairs, recombine_loop fuel m = Some pairs
  /\ Permutation (flat_map both pairs) m
  /\ (forall a b, In (a, Some b) pairs -> key b = reverse_key a)
  /\ (forall a b, In a m -> In b m -> key b = reverse_key a -> a <> b -> In (a, Some b) pairs \/ In (b, Some a) pairs)
  /\ StronglySorted first_before pairs.
Proof.
  induction fuel as [|fuel IH]; intros [|x m] L D S; cbn in L; try lia.
  1, 2: exists []; repeat split; try constructor; easy.
  cbn [recombine_loop]. pose proof (pop_spec (reverse_key x) m) as P. cbn [map] in D. inversion D as [|? ? D1 D2]; subst. inversion S as [|? ? S1 S2]; subst.
  destruct (pop (reverse_key x) m) as [[y m']|].
  - destruct P as (Ky & a & b & -> & ->).
    assert (D3 : NoDup (map key (a ++ b))) by (rewrite map_app in *; cbn in D2; now apply NoDup_remove_1 in D2).
    assert (S3 : StronglySorted before (a ++ b)).
    { clear - S1. induction a as [|z a IH]; cbn in *; [now inversion S1|]. inversion S1 as [|? ? S2 F]; subst. constructor; [auto|].
      rewrite Forall_forall in *. intros w Hw. apply F. apply in_app_or in Hw. apply in_or_app. cbn. tauto. }
    rewrite app_length in L. cbn in L.
    destruct (IH (a ++ b)) as (pairs & E & Pm & Kd & Ex & So); [rewrite app_length; lia|assumption|assumption|].
    exists ((x, Some y) :: pairs). rewrite E. split; [reflexivity|]. split; [|split; [|split]].
    + cbn. constructor. rewrite Pm. apply Permutation_middle.
    + intros u v [Eq|Hi]; [inversion Eq; now subst|]. now apply Kd.
    + assert (Uniq : forall u v, In u (x :: a ++ y :: b) -> In v (x :: a ++ y :: b) -> key u = key v -> u = v).
      { clear - D. change (key x :: map key (a ++ y :: b)) with (map key (x :: a ++ y :: b)) in D. revert D. generalize (x :: a ++ y :: b). intros l D. induction l as [|w l IHl]; [easy|]. cbn [map] in D. inversion D as [|? ? N1 N2]; subst.
        intros u v [<-|Hu] [<-|Hv] K; try reflexivity.
        - destruct N1. rewrite K. now apply in_map.
        - destruct N1. rewrite <- K. now apply in_map.
        - now apply IHl. }
      intros u v Hu Hv K Ne.
      assert (Hxy : forall w, In w (x :: a ++ y :: b) -> w = x \/ w = y \/ In w (a ++ b)).
      { intros w [<-|Hw]; [tauto|]. apply in_app_or in Hw. destruct Hw as [Hw|[<-|Hw]]; rewrite ?in_app_iff; tauto. }
      assert (Hy : In y (x :: a ++ y :: b)) by (right; apply in_or_app; right; now left).
      assert (Hx : In x (x :: a ++ y :: b)) by now left.
      destruct (Hxy u Hu) as [->|[->|Hu']].
      * left. left. f_equal. f_equal. apply Uniq; [assumption|assumption|congruence].
      * right. left. f_equal. apply Uniq; [assumption|assumption|]. rewrite K. apply reverse_sym in Ky. congruence.
      * destruct (Hxy v Hv) as [->|[->|Hv']].
        -- right. left. f_equal. f_equal. apply Uniq; [assumption|assumption|]. apply reverse_sym in K. congruence.
        -- left. left. f_equal. apply Uniq; [assumption|assumption|]. apply reverse_sym in K. rewrite K. apply reverse_sym in Ky. assumption.
        -- destruct (Ex u v Hu' Hv' K Ne); [left|right]; now right.
    + constructor; [assumption|]. apply Forall_forall. intros [u v] Hi. unfold first_before. cbn. rewrite Forall_forall in S2. apply S2.
      assert (In u (a ++ b)) as Hu by (apply (Permutation_in _ Pm); apply in_flat_map; exists (u, v); split; [assumption|now left]).
      apply in_app_or in Hu. apply in_or_app. cbn. tauto.
  - destruct (IH m) as (pairs & E & Pm & Kd & Ex & So); [lia|assumption|assumption|].
    exists ((x, None) :: pairs). rewrite E. split; [reflexivity|]. split; [|split; [|split]].
    + cbn. now constructor.
    + intros u v [Eq|Hi]; [discriminate|]. now apply Kd.
    + intros u v [<-|Hu] [<-|Hv] K Ne; try easy.
      * destruct (P v Hv). assumption.
      * destruct (P u Hu). now apply reverse_sym.
      * destruct (Ex u v Hu Hv K Ne); [left|right]; now right.
    + constructor; [assumption|]. apply Forall_forall. intros [u v] Hi. unfold first_before. cbn. rewrite Forall_forall in S2. apply S2.
      apply (Permutation_in _ Pm). apply in_flat_map. exists (u, v). split; [assumption|now left].
Qed.

(** C41.  Every stream is in exactly one pair; two streams are together exactly
    when each goes from where the other goes to, on the same connection; pairs
    are in the order of the sort hints; the time of a pair is the earlier one. *)
Theorem C41_recombine : forall l, NoDup (map key l) ->
  exists pairs, recombine l = Some pairs
  /\ Permutation (flat_map both pairs) l
  /\ (forall a b, In (a, Some b) pairs ->
        i_connection b = i_connection a /\ i_source b = i_destination a /\ i_destination b = i_source a)
  /\ (forall a b, In a l -> In b l -> a <> b ->
        i_connection b = i_connection a -> i_source b = i_destination a -> i_destination b = i_source a ->
        In (a, Some b) pairs \/ In (b, Some a) pairs)
  /\ StronglySorted (fun p q => (i_sort (fst p) <= i_sort (fst q))%N) pairs.
Proof.
  intros l D. unfold recombine. rewrite (map_distinct D).
  destruct (@recombine_loop_spec (List.length (sorted l)) (sorted l)) as (pairs & E & Pm & Kd & Ex & So).
  - reflexivity.
  - eapply Permutation_NoDup; [|exact D]. apply Permutation_map, Permutation_sym, sorted_perm.
  - apply sorted_sorted.
  - exists pairs. split; [assumption|]. split; [now rewrite Pm, sorted_perm|]. split; [|split; [|assumption]].
    + intros a b H. apply Kd in H. unfold key, reverse_key in H. inversion H. auto.
    + intros a b Ha Hb Ne E1 E2 E3. apply Ex; try assumption.
      * apply (Permutation_in _ (Permutation_sym (sorted_perm l)) Ha).
      * apply (Permutation_in _ (Permutation_sym (sorted_perm l)) Hb).
      * unfold key, reverse_key. congruence.
Qed.
Print Assumptions C41_recombine.

Theorem C41_time : forall a b,
  match pair_time a b with
  | Some t => (exists x, (x = a \/ b = Some x) /\ i_time x = Some t)
              /\ forall x u, x = a \/ b = Some x -> i_time x = Some u -> (t <= u)%Z
  | None => forall x, x = a \/ b = Some x -> i_time x = None
  end.
Proof.
  intros a b. unfold pair_time. destruct (i_time a) as [t|] eqn:Ea, b as [b|].
  - destruct (i_time b) as [u|] eqn:Eb.
    + split.
      * destruct (Z.min_spec t u) as [[_ ->]|[_ ->]]; [exists a|exists b]; split; auto.
      * intros x v [->|K] H; [rewrite Ea in H; inversion H; subst; apply Z.le_min_l|]. inversion K; subst. rewrite Eb in H. inversion H; subst. apply Z.le_min_r.
    + split; [exists a; auto|]. intros x v [->|K] H; [rewrite Ea in H; inversion H; lia|]. inversion K; subst. congruence.
  - split; [exists a; auto|]. intros x v [->|K] H; [rewrite Ea in H; inversion H; lia|]. discriminate.
  - destruct (i_time b) as [u|] eqn:Eb.
    + split; [exists b; auto|]. intros x v [->|K] H; [congruence|]. inversion K; subst. rewrite Eb in H. inversion H; lia.
    + intros x [->|K]; [assumption|]. inversion K; now subst.
  - intros x [->|K]; [assumption|discriminate].
Qed.
Print Assumptions C41_time.

(** Two streams with the same key: one of them is lost. *)
Theorem C41_same_key_refuted : exists names l pairs,
  tcpick_dir names = Ok l /\ recombine l = Some pairs /\ List.length names = 2 /\ List.length (flat_map both pairs) = 1.
Proof.
  exists [s "tcpick_0001_10.0.0.1_10.0.0.2_80.clnt.dat"; s "tcpick_0001_10.0.0.1_10.0.0.2_81.clnt.dat"].
  eexists. eexists. split; [reflexivity|]. split; [reflexivity|]. split; reflexivity.
Qed.
Print Assumptions C41_same_key_refuted.

Lemma ok_inj (A : Type) (x y : A) : Ok x = Ok y -> x = y.
Proof. congruence. Qed.
(** This does not happen with tcpflow: a directory is either rejected or every
    file in it, but for the two reports, is described with a key of its own. *)
Theorem C41_tcpflow : forall names l, tcpflow_dir names [] = Ok l ->
  NoDup (map key l)
  /\ map i_path l = filter (fun n => negb (existsb (str_eqb n) [s "report.xml"; s "alerts.txt"])) names.
Proof.
  assert (G : forall names seen l, tcpflow_dir names seen = Ok l ->
    NoDup (map key l) /\ (forall x, In x l -> i_connection x = None /\ ~ In (i_source x, i_destination x) seen)
    /\ map i_path l = filter (fun n => negb (existsb (str_eqb n) ignored_names)) names).
  { induction names as [|n names IH]; intros seen l H; cbn [tcpflow_dir] in H.
    - inversion H; subst. split; [constructor|]. split; [easy|reflexivity].
    - cbn [filter]. destruct (existsb (str_eqb n) ignored_names); cbn [negb]; [now apply IH|].
      destruct (tcpflow_name n) as [[[ts src] dest]|]; [|discriminate].
      destruct (existsb (fun sd => str_eqb (fst sd) src && str_eqb (snd sd) dest) seen) eqn:Es; [discriminate|].
      destruct (_ <? _)%Z; [discriminate|]. destruct (tcpflow_dir names ((src, dest) :: seen)) as [l'| |] eqn:E; try discriminate.
      apply ok_inj in H. subst l. destruct (IH _ _ E) as (I1 & I2 & I3). split; [|split].
      + cbn [map]. constructor; [|assumption]. intro K. apply in_map_iff in K. destruct K as [x [Kx Hx]]. destruct (I2 x Hx) as [_ K].
        apply K. left. unfold key in Kx. cbn [i_connection i_source i_destination] in Kx. injection Kx as _ K1 K2. now rewrite K1, K2.
      + intros x [<-|Hx].
        * cbn [i_connection i_source i_destination]. split; [reflexivity|]. intro K.
          assert (existsb (fun sd => str_eqb (fst sd) src && str_eqb (snd sd) dest) seen = true); [|congruence].
          apply existsb_exists. exists (src, dest). split; [assumption|]. cbn. now rewrite !str_eqb_refl.
        * destruct (I2 x Hx) as [K1 K2]. split; [assumption|]. intro K. apply K2. now right.
      + cbn [map i_path]. now rewrite I3. }
  intros names l H. destruct (G names [] l H) as (G1 & _ & G3). split; [assumption|exact G3].
Qed.
Print Assumptions C41_tcpflow.

(** So every file of the directory is read, exactly once. *)
Theorem C41_tcpflow_every_file : forall names l, tcpflow_dir names [] = Ok l ->
  exists pairs, recombine l = Some pairs
  /\ Permutation (map i_path (flat_map both pairs))
       (filter (fun n => negb (existsb (str_eqb n) [s "report.xml"; s "alerts.txt"])) names).
Proof.
  intros names l H. destruct (C41_tcpflow H) as [D P]. destruct (C41_recombine D) as (pairs & E & Pm & _).
  exists pairs. split; [assumption|]. rewrite <- P. now apply Permutation_map.
Qed.
Print Assumptions C41_tcpflow_every_file.

(** ** Names of files *)

Lemma split_c_spec sep x l : split_c sep x = l <-> l <> [] /\ join [sep] l = x /\ forall w, In w l -> ~ In sep w.
Proof.
  assert (F : split_c sep x <> [] /\ join [sep] (split_c sep x) = x /\ forall w, In w (split_c sep x) -> ~ In sep w).
  { induction x as [|c x (IH1 & IH2 & IH3)]; [cbn; intuition (subst; easy)|]. cbn [split_c].
    destruct (split_c sep x) as [|w ws]; [easy|]. destruct (N.eqb_spec c sep) as [->|Ne]; split; try discriminate; split.
    - rewrite join_cons by discriminate. rewrite IH2. reflexivity.
    - intros w' [<-|H]; [easy|]. now apply IH3.
    - destruct ws; cbn in *; congruence.
    - intros w' [<-|H]; [|apply IH3; now right]. intros [K|K]; [congruence|]. apply (IH3 w); [now left|assumption]. }
  split; [intros <-; exact F|]. intros (N0 & J & W).
  revert x J F. induction l as [|w l IH]; [easy|]. intros x J _. clear N0.
  assert (Wc : forall w r, ~ In sep w -> split_c sep (w ++ sep :: r) = w :: split_c sep r).
  { clear. induction w as [|c w IH]; intros r H; cbn.
    - pose proof (@split_ne sep r) as Sn. destruct (split_c sep r); [easy|]. now rewrite N.eqb_refl.
    - rewrite IH by (intro K; apply H; now right). destruct (N.eqb_spec c sep) as [->|]; [destruct H; now left|reflexivity]. }
  assert (W1 : forall w, ~ In sep w -> split_c sep w = [w]).
  { clear. induction w as [|c w IH]; intro H; [reflexivity|]. cbn. rewrite IH by (intro K; apply H; now right).
    destruct (N.eqb_spec c sep) as [->|]; [destruct H; now left|reflexivity]. }
  destruct l as [|w' l].
  - cbn in J. subst. apply W1. apply W. now left.
  - rewrite join_cons in J by discriminate. subst x. cbn [app]. rewrite Wc by (apply W; now left). f_equal.
    apply IH; [discriminate|intros; apply W; now right|reflexivity|].
    clear - W. set (y := join [sep] (w' :: l)).
    generalize y. clear y. intro y.
    induction y as [|c y (IH1 & IH2 & IH3)]; [cbn; intuition (subst; easy)|]. cbn [split_c].
    destruct (split_c sep y) as [|v vs]; [easy|]. destruct (N.eqb_spec c sep) as [->|Ne]; split; try discriminate; split.
    + rewrite join_cons by discriminate. rewrite IH2. reflexivity.
    + intros v' [<-|H]; [easy|]. now apply IH3.
    + destruct vs; cbn in *; congruence.
    + intros v' [<-|H]; [|apply IH3; now right]. intros [K|K]; [congruence|]. apply (IH3 v); [now left|assumption].
Qed.
Lemma all_digits_spec x : all_digits x = true <-> x <> [] /\ Forall (fun c => (48 <= c <= 57)%N) x.
Proof.
  unfold all_digits. rewrite andb_true_iff, forallb_forall, Forall_forall. unfold is_digit, nonempty.
  split; intros [H K]; split.
  - now destruct x.
  - intros c Hc. specialize (K c Hc). lia.
  - now destruct x.
  - intros c Hc. specialize (K c Hc). lia.
Qed.

(** The name of a tcpflow file is read as what it was made of.  (The regular
    expression also lets a newline follow.) *)
Theorem C41_tcpflow_name : forall name ts src dest,
  tcpflow_name name = Some (ts, src, dest) <->
  exists t a p b q n,
    name = t ++ s "-" ++ a ++ s "-" ++ p ++ s "-" ++ b ++ s "-" ++ q ++ s "-" ++ n
    /\ src = a ++ s "-" ++ p /\ dest = b ++ s "-" ++ q /\ ts = number_of t
    /\ Forall (fun x => x <> [] /\ Forall (fun c => (48 <= c <= 57)%N) x) [t; p; q; chomp n]
    /\ a <> [] /\ b <> [] /\ ~ In 45%N a /\ ~ In 45%N b.
Proof.
  intros name ts src dest. change (s "-") with [dash]. split.
  - unfold tcpflow_name. destruct (split_c dash name) as [|t [|a [|p [|b [|q [|n [|? ?]]]]]]] eqn:E; try discriminate.
    apply split_c_spec in E. destruct E as (_ & J & W).
    destruct (_ && _) eqn:C; [|discriminate]. intro H. inversion H; subst. rewrite !andb_true_iff, !all_digits_spec in C.
    destruct C as [[[[[C1 C2] C3] C4] C5] C6]. exists t, a, p, b, q, n. split; [reflexivity|]. split; [reflexivity|]. split; [reflexivity|]. split; [reflexivity|].
    split; [repeat (apply Forall_cons; [assumption|]); apply Forall_nil|]. split; [now destruct a|]. split; [now destruct b|].
    split; apply W; cbn; tauto.
  - intros (t & a & p & b & q & n & -> & -> & -> & -> & F & Ha & Hb & Na & Nb).
    assert (Dg : forall x, Forall (fun c => (48 <= c <= 57)%N) x -> ~ In dash x).
    { intros x Hx K. rewrite Forall_forall in Hx. specialize (Hx _ K). unfold dash in Hx. lia. }
    inversion F as [|? ? [F1 F1'] F']; subst. inversion F' as [|? ? [F2 F2'] F'']; subst. inversion F'' as [|? ? [F3 F3'] F''']; subst.
    inversion F''' as [|? ? [F4 F4'] _]; subst.
    assert (Nn : ~ In dash n).
    { intro K. unfold chomp in F4'. destruct (rev n) as [|c r] eqn:Er; [now apply Dg in F4'|].
      destruct (N.eqb_spec c 10) as [->|]; [|now apply Dg in F4'].
      apply in_rev in K. rewrite Er in K. destruct K as [K|K]; [discriminate|]. apply (Dg _ F4'). now apply -> in_rev. }
    unfold tcpflow_name.
    replace (split_c dash (t ++ [dash] ++ a ++ [dash] ++ p ++ [dash] ++ b ++ [dash] ++ q ++ [dash] ++ n)) with [t; a; p; b; q; n].
    + rewrite !(proj2 (all_digits_spec _)) by (split; assumption).
      destruct a; [easy|]. destruct b; [easy|]. reflexivity.
    + symmetry. apply split_c_spec. split; [discriminate|]. split; [reflexivity|]. intros w Hw. cbn in Hw.
      repeat (destruct Hw as [<-|Hw]; [first [assumption|now apply Dg]|]). destruct Hw.
Qed.
Print Assumptions C41_tcpflow_name.

Lemma cut_at_spec sep x a b : cut_at sep x = Some (a, b) <-> x = a ++ sep :: b /\ ~ In sep a.
Proof.
  revert a b. induction x as [|c x IH]; intros a b; cbn [cut_at].
  - split; [discriminate|]. intros [K _]. destruct a; discriminate.
  - destruct (N.eqb_spec c sep) as [->|Ne].
    + split; [intro H; inversion H; subst; auto|]. intros [K Na]. destruct a as [|c' a]; [now inversion K|].
      inversion K; subst. destruct Na. now left.
    + destruct (cut_at sep x) as [[u v]|].
      * split.
        -- intro H. inversion H; subst. destruct (proj1 (IH u b) eq_refl) as [-> Nu]. split; [reflexivity|]. intros [K|K]; auto.
        -- intros [K Na]. destruct a as [|c' a]; [inversion K; congruence|]. inversion K; subst.
           assert (X : Some (u, v) = Some (a, b)) by (apply IH; split; [reflexivity|]; intro; apply Na; now right). inversion X. reflexivity.
      * split; [discriminate|]. intros [K Na]. destruct a as [|c' a]; [inversion K; congruence|]. inversion K; subst.
        assert (X : None = Some (a, b)) by (apply IH; split; [reflexivity|]; intro; apply Na; now right). discriminate.
Qed.
Lemma port_spec suffix y : port_and suffix y = true <-> exists port c, y = port ++ [c] ++ suffix /\ port <> [] /\ c <> 10%N /\ ~ In 46%N port.
Proof.
  unfold port_and. rewrite andb_true_iff, starts_with_spec. split.
  - intros [[r S] H]. rewrite S in H. replace (List.length suffix) with (List.length (rev suffix)) in H by apply rev_length.
    rewrite skipn_app, skipn_all, Nat.sub_diag in H. cbn [app skipn] in H. destruct r as [|c [|c' r]]; try discriminate.
    rewrite andb_true_iff, forallb_forall in H. destruct H as [C1 C2].
    exists (rev (c' :: r)), c. split; [|split; [|split]].
    + rewrite <- (rev_involutive y), S, rev_app_distr, rev_involutive. cbn [rev]. rewrite <- !app_assoc. reflexivity.
    + intro K. apply (f_equal (@List.length N)) in K. rewrite rev_length in K. discriminate.
    + intros ->. discriminate.
    + intro K. apply in_rev in K. apply C2 in K. discriminate.
  - intros (port & c & -> & Np & Nc & Nd). rewrite !rev_app_distr. rewrite <- app_assoc. split; [eexists; reflexivity|].
    replace (List.length suffix) with (List.length (rev suffix)) by apply rev_length.
    rewrite skipn_app, skipn_all, Nat.sub_diag. cbn [app skipn rev].
    destruct (rev port) as [|p ps] eqn:Er; [destruct Np; rewrite <- (rev_involutive port), Er; reflexivity|].
    rewrite andb_true_iff, forallb_forall. split; [lia|].
    intros a Ha. rewrite <- Er in Ha. apply in_rev in Ha. destruct (N.eqb_spec a 46) as [->|]; [easy|reflexivity].
Qed.
Lemma tail_spec x d : tcpick_tail x = Some d <->
  exists port c, chomp x = port ++ [c] ++ match d with Serv => s "serv.dat" | Clnt => s "clnt.dat" end
    /\ port <> [] /\ c <> 10%N /\ ~ In 46%N port.
Proof.
  unfold tcpick_tail. destruct (port_and (s "serv.dat") (chomp x)) eqn:E1; [|destruct (port_and (s "clnt.dat") (chomp x)) eqn:E2].
  - apply port_spec in E1. destruct d; [split; [intros _; exact E1|reflexivity]|]. split; [discriminate|].
    intros (port & c & K & _). destruct E1 as (port' & c' & K' & _). exfalso.
    rewrite K in K'. apply (f_equal (@rev N)) in K'. rewrite !rev_app_distr in K'. discriminate.
  - apply port_spec in E2. destruct d; [|split; [intros _; exact E2|reflexivity]]. split; [discriminate|].
    intro K. apply port_spec in K. congruence.
  - split; [discriminate|]. intro K. destruct d; apply port_spec in K; congruence.
Qed.

(** The name of a tcpick file is read as what it was made of. *)
Theorem C41_tcpick_name : forall name n a b d,
  tcpick_name name = Some (n, a, b, d) <->
  exists counter tail port c,
    name = s "tcpick_" ++ counter ++ s "_" ++ a ++ s "_" ++ b ++ s "_" ++ tail
    /\ chomp tail = port ++ [c] ++ match d with Serv => s "serv.dat" | Clnt => s "clnt.dat" end
    /\ counter <> [] /\ Forall (fun c => (48 <= c <= 57)%N) counter /\ n = number_of counter
    /\ a <> [] /\ b <> [] /\ port <> [] /\ ~ In 95%N a /\ ~ In 95%N b /\ ~ In 46%N port /\ c <> 10%N.
Proof.
  intros name n a b d. change (s "_") with [underscore]. unfold tcpick_name. split.
  - destruct (starts_with name (s "tcpick_")) eqn:S; [|discriminate]. apply starts_with_spec in S. destruct S as [r ->].
    change (skipn 7 (s "tcpick_" ++ r)) with r. destruct (cut_at underscore r) as [[counter r1]|] eqn:C1; [|discriminate].
    destruct (cut_at underscore r1) as [[a' r2]|] eqn:C2; [|discriminate]. destruct (cut_at underscore r2) as [[b' tail]|] eqn:C3; [|discriminate].
    destruct (_ && _) eqn:D; [|discriminate]. destruct (tcpick_tail tail) as [d'|] eqn:Et; [|discriminate]. intro H. inversion H; subst.
    apply cut_at_spec in C1, C2, C3. destruct C1 as [-> N1], C2 as [-> N2], C3 as [-> N3].
    rewrite !andb_true_iff, all_digits_spec in D. destruct D as [[D1 D2] D3]. apply tail_spec in Et. destruct Et as (port & c & T1 & T2 & T3 & T4).
    exists counter, tail, port, c. repeat split; try assumption; try (intros ->; discriminate); apply D1.
  - intros (counter & tail & port & c & -> & T & Nc & Fc & -> & Na & Nb & Np & Ua & Ub & Up & Uc).
    replace (starts_with _ _) with true by (symmetry; apply starts_with_spec; eexists; reflexivity).
    assert (Dg : ~ In underscore counter) by (intro K; rewrite Forall_forall in Fc; apply Fc in K; unfold underscore in K; lia).
    assert (Cut : forall x y, ~ In underscore x -> cut_at underscore (x ++ [underscore] ++ y) = Some (x, y)) by (intros; apply cut_at_spec; auto).
    match goal with |- context [skipn 7 ?x] => change (skipn 7 x) with (counter ++ [underscore] ++ a ++ [underscore] ++ b ++ [underscore] ++ tail) end.
    rewrite !Cut by assumption.
    rewrite (proj2 (all_digits_spec counter)) by auto. destruct a; [easy|]. destruct b; [easy|]. cbn [nonempty andb].
    rewrite (proj2 (tail_spec tail d)); [reflexivity|]. exists port, c. auto.
Qed.
Print Assumptions C41_tcpick_name.

(** All files of a tcpick directory are described, in order; client streams go
    from the first address of the name to the second, server streams from the
    second to the first; so the two streams of a connection are paired. *)
Theorem C41_tcpick : forall names l, tcpick_dir names = Ok l ->
  Forall2 (fun name x => i_path x = name /\ exists n a b d, tcpick_name name = Some (n, a, b, d)
    /\ i_connection x = Some n
    /\ (d = Clnt -> i_source x = a /\ i_destination x = b)
    /\ (d = Serv -> i_source x = b /\ i_destination x = a)) names l.
Proof.
  induction names as [|name names IH]; intros l H; cbn [tcpick_dir] in H; [apply ok_inj in H; subst; constructor|].
  destruct (tcpick_name name) as [[[[n a] b] d]|] eqn:E; [|discriminate]. destruct (tcpick_dir names) as [l'| |]; try discriminate.
  apply ok_inj in H. subst l. constructor; [|now apply IH]. destruct d; (split; [reflexivity|]); exists n, a, b; [exists Serv|exists Clnt];
    (split; [assumption|]); cbn; repeat split; congruence.
Qed.
Print Assumptions C41_tcpick.

Definition ex_names : list str :=
  [s "1449847647-127.000.000.001-55086-127.000.000.001-08080-0"; s "report.xml";
   s "1449847645-127.000.000.001-08080-127.000.000.001-55086-1"; s "1449847646-127.000.000.001-55088-127.000.000.001-08080-2"].
Example C41_example : exists l pairs, tcpflow_dir ex_names [] = Ok l /\ recombine l = Some pairs
  /\ map (fun p => (i_path (fst p), option_map i_path (snd p))) pairs
     = [(s "1449847645-127.000.000.001-08080-127.000.000.001-55086-1", Some (s "1449847647-127.000.000.001-55086-127.000.000.001-08080-0"));
        (s "1449847646-127.000.000.001-55088-127.000.000.001-08080-2", None)].
Proof. eexists. eexists. split; [vm_compute; reflexivity|]. split; [vm_compute; reflexivity|]. vm_compute. reflexivity. Qed.
Example C41_tcpick_example : tcpick_name (s "tcpick_0003_10.0.0.1_10.0.0.2_http-alt.serv.dat") = Some (3%N, s "10.0.0.1", s "10.0.0.2", Serv).
Proof. reflexivity. Qed.

(** * C61: direction *)

(** The data begin as a status line: [HTTP/1.], a digit, a space, three digits
    and a space. *)
Definition like_response (data : str) : Prop :=
  exists d x y z rest, data = s "HTTP/1." ++ [d; 32; x; y; z; 32]%N ++ rest
    /\ Forall (fun c => (48 <= c <= 57)%N) [d; x; y; z].
(** The first line is three words, the last [HTTP/1.] and a digit, with
    whitespace possibly after it. *)
Definition like_request (data : str) : Prop :=
  exists a b d blank rest, data = a ++ [32]%N ++ b ++ [32]%N ++ s "HTTP/1." ++ [d] ++ blank ++ rest
    /\ a <> [] /\ b <> [] /\ (48 <= d <= 57)%N
    /\ Forall (fun c => c <> 32 /\ c <> 10)%N a /\ Forall (fun c => c <> 32 /\ c <> 10)%N b
    /\ Forall (fun c => (9 <= c <= 13 /\ c <> 10) \/ c = 32)%N blank
    /\ (rest = [] \/ exists r, rest = 10%N :: r).

Lemma is_digit_spec c : is_digit c = true <-> (48 <= c <= 57)%N.
Proof. unfold is_digit. lia. Qed.
Lemma sniff_outbound_spec data : sniff_outbound data = true <-> like_response data.
Proof.
  unfold sniff_outbound, like_response. rewrite andb_true_iff, starts_with_spec. split.
  - intros [[r ->] H]. change (skipn 7 (s "HTTP/1." ++ r)) with r in H.
    destruct r as [|d [|b [|x [|y [|z [|c rest]]]]]]; try discriminate.
    rewrite !andb_true_iff, !N.eqb_eq, !is_digit_spec in H. destruct H as [[[[[H1 ->] H3] H4] H5] ->].
    exists d, x, y, z, rest. split; [reflexivity|]. repeat (apply Forall_cons; [assumption|]). apply Forall_nil.
  - intros (d & x & y & z & rest & -> & F). split; [eexists; reflexivity|].
    change (skipn 7 (s "HTTP/1." ++ [d; 32; x; y; z; 32]%N ++ rest)) with ([d; 32; x; y; z; 32]%N ++ rest). cbn [app].
    inversion F as [|? ? F1 F']; subst. inversion F' as [|? ? F2 F'']; subst. inversion F'' as [|? ? F3 F3']; subst. inversion F3' as [|? ? F4 _]; subst.
    rewrite !(proj2 (is_digit_spec _)) by assumption. reflexivity.
Qed.

(** The two lines cannot be confused. *)
Lemma lstrip_spec x : exists a, x = a ++ lstrip x /\ Forall (fun c => (9 <= c <= 13)%N \/ c = 32%N) a.
Proof.
  induction x as [|c x [a [E F]]]; [exists []; split; [reflexivity|constructor]|]. cbn [lstrip].
  destruct (_ || _) eqn:C; [|exists []; split; [reflexivity|constructor]].
  exists (c :: a). cbn. split; [congruence|]. constructor; [lia|assumption].
Qed.
Lemma rstrip_spec x : exists a, x = rstrip x ++ a /\ Forall (fun c => (9 <= c <= 13)%N \/ c = 32%N) a.
Proof.
  unfold rstrip. destruct (lstrip_spec (rev x)) as [a [E F]]. exists (rev a). split.
  - rewrite <- rev_app_distr, <- E. now rewrite rev_involutive.
  - apply Forall_rev. assumption.
Qed.
Lemma lstrip_blank a x : Forall (fun c => (9 <= c <= 13)%N \/ c = 32%N) a -> (forall c r, x = c :: r -> ~ ((9 <= c <= 13)%N \/ c = 32%N)) ->
  lstrip (a ++ x) = x.
Proof.
  intros F H. induction F as [|c a Hc F IH]; cbn [app lstrip].
  - destruct x as [|c x]; [reflexivity|]. cbn [lstrip]. specialize (H c x eq_refl). destruct (_ || _) eqn:C; [lia|reflexivity].
  - destruct (_ || _) eqn:C; [assumption|lia].
Qed.
Lemma first_line_spec data : exists rest, data = first_line data ++ rest /\ (rest = [] \/ exists r, rest = 10%N :: r)
  /\ ~ In 10%N (first_line data).
Proof.
  induction data as [|c data (rest & E & R & N1)]; [exists []; repeat split; auto|]. cbn [first_line].
  destruct (N.eqb_spec c 10) as [->|Ne]; [exists (10%N :: data); repeat split; eauto|].
  exists rest. cbn. split; [congruence|]. split; [assumption|]. intros [K|K]; auto.
Qed.
Lemma first_line_app x rest : ~ In 10%N x -> (rest = [] \/ exists r, rest = 10%N :: r) -> first_line (x ++ rest) = x.
Proof.
  intros Nx R. induction x as [|c x IH]; cbn [app first_line].
  - destruct R as [->|[r ->]]; reflexivity.
  - destruct (N.eqb_spec c 10) as [->|]; [destruct Nx; now left|]. f_equal. apply IH. intro K. apply Nx. now right.
Qed.
Lemma sniff_inbound_spec data : sniff_inbound data = true <-> like_request data.
Proof.
  unfold sniff_inbound, like_request. split.
  - intro H. destruct (split_c 32 (rstrip (first_line data))) as [|a [|b [|v [|? ?]]]] eqn:E; try discriminate.
    apply split_c_spec in E. destruct E as (_ & J & W). rewrite !andb_true_iff, starts_with_spec in H. destruct H as [[[Ha Hb] [r Hv]] Hd].
    subst v. change (skipn 7 (s "HTTP/1." ++ r)) with r in Hd. destruct r as [|d [|? ?]]; try discriminate. apply is_digit_spec in Hd.
    destruct (rstrip_spec (first_line data)) as [blank [Eb Fb]]. destruct (first_line_spec data) as (rest & Er & R & N1).
    rewrite <- J in Eb. cbn [join] in Eb. exists a, b, d, blank, rest. split.
    + rewrite Er at 1. rewrite Eb. rewrite <- !app_assoc. reflexivity.
    + assert (Nn : forall c, In c a \/ In c b \/ In c blank -> c <> 10%N).
      { intros c Hc ->. apply N1. rewrite Eb. rewrite !in_app_iff. tauto. }
      split; [now destruct a|]. split; [now destruct b|]. split; [assumption|].
      split; [|split; [|split; [|assumption]]]; apply Forall_forall; intros c Hc.
      * split; [|apply Nn; tauto]. intros ->. apply (W a); [now left|assumption].
      * split; [|apply Nn; tauto]. intros ->. apply (W b); [right; now left|assumption].
      * rewrite Forall_forall in Fb. specialize (Fb c Hc). specialize (Nn c (or_intror (or_intror Hc))). lia.
  - intros (a & b & d & blank & rest & -> & Ha & Hb & Hd & Fa & Fb & Fbl & R).
    rewrite Forall_forall in Fa, Fb.
    set (core := a ++ [32]%N ++ b ++ [32]%N ++ s "HTTP/1." ++ [d]).
    replace (a ++ [32]%N ++ b ++ [32]%N ++ s "HTTP/1." ++ [d] ++ blank ++ rest) with ((core ++ blank) ++ rest)
      by (unfold core; rewrite <- !app_assoc; reflexivity).
    rewrite first_line_app; [| |assumption].
    + unfold rstrip. rewrite rev_app_distr, lstrip_blank.
      * rewrite rev_involutive. replace (split_c 32 core) with [a; b; s "HTTP/1." ++ [d]].
        -- destruct a; [easy|]. destruct b; [easy|].
           change (is_digit d = true). now apply is_digit_spec.
        -- symmetry. apply split_c_spec. split; [discriminate|]. split; [reflexivity|].
           intros w [<-|[<-|[<-|[]]]] K; [now apply Fa in K|now apply Fb in K|].
           apply in_app_or in K. destruct K as [K|[K|[]]]; [|lia]. vm_compute in K. intuition discriminate.
      * apply Forall_rev. eapply Forall_impl; [|exact Fbl]. cbn beta. intros; lia.
      * intros c r K. unfold core in K. rewrite !rev_app_distr in K. cbn [rev app] in K. inversion K; subst. lia.
    + unfold core. rewrite !in_app_iff. intro K.
      destruct K as [[K|[K|[K|[K|[K|K]]]]]|K].
      * apply Fa in K. lia.
      * destruct K as [K|[]]; discriminate.
      * apply Fb in K. lia.
      * destruct K as [K|[]]; discriminate.
      * vm_compute in K. intuition discriminate.
      * destruct K as [K|[]]; lia.
      * rewrite Forall_forall in Fbl. apply Fbl in K. lia.
Qed.

(** C61.  Of two files, one of which looks like responses and the other does
    not, or one of which looks like requests and none like responses, the
    former is read as responses resp. requests, in whichever order they are
    given. *)
Theorem C61_responses : forall E complain requests responses,
  like_response (snd responses) -> ~ like_response (snd requests) ->
  let result := opened E [] (Some requests) (Some responses) in
  connection E true complain (Some requests) (Some responses) = result
  /\ connection E true complain (Some responses) (Some requests) = result.
Proof.
  intros E complain [p1 requests] [p2 responses] H1 H2. cbn [snd] in *. apply sniff_outbound_spec in H1.
  assert (H3 : sniff_outbound requests = false) by (destruct (sniff_outbound requests) eqn:K; [apply sniff_outbound_spec in K; easy|reflexivity]).
  unfold connection, sniff_direction, maybe. rewrite H1, H3. split; reflexivity.
Qed.
Print Assumptions C61_responses.
Theorem C61_requests : forall E complain requests other,
  like_request (snd requests) -> ~ like_request (snd other) -> ~ like_response (snd other) -> ~ like_response (snd requests) ->
  let result := opened E [] (Some requests) (Some other) in
  connection E true complain (Some requests) (Some other) = result
  /\ connection E true complain (Some other) (Some requests) = result.
Proof.
  intros E complain [p1 requests] [p2 other] H1 H2 H3 H4. cbn [snd] in *. apply sniff_inbound_spec in H1.
  assert (K2 : sniff_inbound other = false) by (destruct (sniff_inbound other) eqn:K; [apply sniff_inbound_spec in K; easy|reflexivity]).
  assert (K3 : sniff_outbound other = false) by (destruct (sniff_outbound other) eqn:K; [apply sniff_outbound_spec in K; easy|reflexivity]).
  assert (K4 : sniff_outbound requests = false) by (destruct (sniff_outbound requests) eqn:K; [apply sniff_outbound_spec in K; easy|reflexivity]).
  unfold connection, sniff_direction, maybe. rewrite H1, K2, K3, K4. split; reflexivity.
Qed.
Print Assumptions C61_requests.
(** A single file is read as what it looks like, after notice 1278; a file that
    looks like neither is not read, and is reported. *)
Theorem C61_one_sided : forall E f,
  (like_response (snd f) -> connection E true true (Some f) None = opened E [Box1278 (fst f)] None (Some f))
  /\ (like_request (snd f) -> ~ like_response (snd f) -> connection E true true (Some f) None = opened E [Box1278 (fst f)] (Some f) None)
  /\ (~ like_request (snd f) -> ~ like_response (snd f) ->
        connection E true true (Some f) None = mkSource [Box1278 (fst f); Box1279 (fst f) (s "(none)")] false).
Proof.
  intros E [p data]. cbn [fst snd].
  assert (K1 : ~ like_response data -> sniff_outbound data = false) by (intro; destruct (sniff_outbound data) eqn:K; [apply sniff_outbound_spec in K; easy|reflexivity]).
  assert (K2 : ~ like_request data -> sniff_inbound data = false) by (intro; destruct (sniff_inbound data) eqn:K; [apply sniff_inbound_spec in K; easy|reflexivity]).
  unfold connection, sniff_direction, maybe. split; [|split].
  - intro H. apply sniff_outbound_spec in H. rewrite H. reflexivity.
  - intros H1 H2. apply sniff_inbound_spec in H1. rewrite H1, (K1 H2). reflexivity.
  - intros H1 H2. rewrite (K1 H2), (K2 H1). reflexivity.
Qed.
Print Assumptions C61_one_sided.
Example C61_example : like_response (s "HTTP/1.1 200 OK") /\ ~ like_response (s "GET / HTTP/1.1") /\ like_request (s "GET / HTTP/1.1").
Proof.
  rewrite <- !sniff_outbound_spec, <- sniff_inbound_spec. vm_compute. intuition discriminate.
Qed.

(** * C42: combined files *)

(** [marker] occurs in [x]. *)
Definition occurs (marker x : str) : Prop := exists a b, x = a ++ marker ++ b.

Lemma split1_some marker x a b : split1 marker x = Some (a, b) ->
  x = a ++ marker ++ b /\ forall a' b', x = a' ++ marker ++ b' -> List.length a <= List.length a'.
Proof.
  revert a b. induction x as [|c x IH]; intros a b; cbn [split1].
  - destruct (starts_with [] marker) eqn:E; [|discriminate]. intro H. inversion H; subst. apply starts_with_spec in E. destruct E as [r E].
    destruct marker; [|discriminate]. cbn in *. split; [reflexivity|]. intros. cbn. lia.
  - destruct (starts_with (c :: x) marker) eqn:E.
    + intro H. inversion H; subst. apply starts_with_spec in E. destruct E as [r E]. rewrite E.
      rewrite skipn_app, skipn_all, Nat.sub_diag. cbn. split; [reflexivity|]. intros. lia.
    + destruct (split1 marker x) as [[a0 b0]|] eqn:S; [|discriminate]. intro H. inversion H; subst.
      destruct (IH a0 b eq_refl) as [-> M]. split; [reflexivity|]. intros [|c' a'] b' K; cbn in K.
      * exfalso. assert (starts_with (c :: a0 ++ marker ++ b) marker = true); [|congruence]. apply starts_with_spec. now exists b'.
      * inversion K. cbn. apply le_n_S. eapply M. eassumption.
Qed.
Lemma split1_none marker x : split1 marker x = None -> ~ occurs marker x.
Proof.
  induction x as [|c x IH]; cbn [split1].
  - destruct (starts_with [] marker) eqn:E; [discriminate|]. intros _ (a & b & K). symmetry in K. apply app_eq_nil in K. destruct K as [_ K].
    assert (starts_with [] marker = true); [|congruence]. apply starts_with_spec. exists b. now symmetry.
  - destruct (starts_with (c :: x) marker) eqn:E; [discriminate|]. destruct (split1 marker x) as [[a0 b0]|] eqn:S; [discriminate|].
    intros _ ([|c' a] & b & K); cbn in K.
    + assert (starts_with (c :: x) marker = true); [|congruence]. apply starts_with_spec. now exists b.
    + inversion K. apply IH; [reflexivity|]. now exists a, b.
Qed.

(** No beginning of the marker but itself is also an end of it: its last
    character is nowhere else in it. *)
Definition ends_only (marker : str) : Prop := exists m c, marker = m ++ [c] /\ ~ In c m.
Lemma no_overlap marker pre a b : ends_only marker -> ~ occurs marker pre ->
  (exists r, pre ++ marker ++ r = a ++ marker ++ b) -> List.length pre <= List.length a.
Proof.
  intros (m & c & -> & Nc) Np [r H]. destruct (Nat.le_gt_cases (List.length pre) (List.length a)) as [|G]; [assumption|exfalso].
  (* the occurrence at [a] ends inside the marker at [pre], with [c] *)
  assert (P : exists p, pre = a ++ p /\ p <> []).
  { clear - G H. revert pre H G. induction a as [|x a IH]; intros [|y pre] H G; cbn in *; try lia.
    - exists (y :: pre). split; [reflexivity|discriminate].
    - inversion H; subst. destruct (IH pre H2 ltac:(lia)) as (p & -> & Hp). now exists p. }
  destruct P as (p & -> & Hp). rewrite <- app_assoc in H. apply app_inv_head in H.
  destruct (Nat.le_gt_cases (List.length (m ++ [c])) (List.length p)) as [L|L].
  - apply Np. assert (Q : exists q, p = (m ++ [c]) ++ q).
    { clear - H L. revert H L. generalize (m ++ [c]) at 2 3 4 as w. generalize ((m ++ [c]) ++ r) as z. intros z w. revert p.
      induction w as [|x w IH]; intros p H L; [now exists p|]. destruct p as [|y p]; cbn in *; [lia|]. inversion H; subst.
      destruct (IH p H2 ltac:(lia)) as [q ->]. now exists q. }
    destruct Q as [q ->]. now exists a, q.
  - assert (Q : exists q, p ++ q = m /\ q ++ [c] ++ b = (m ++ [c]) ++ r \/ False).
    { rewrite app_length in L. cbn in L.
      assert (Q : exists q, m = p ++ q).
      { clear - H L. rewrite <- (app_assoc m [c] b) in H. revert H L. generalize ((m ++ [c]) ++ r) as z. generalize ([c] ++ b) as w. intros w z. revert p.
        induction m as [|x m IH]; intros p H L; [destruct p; [now exists []|cbn in L; lia]|]. destruct p as [|y p]; [now exists (x :: m)|]. cbn in *.
        inversion H; subst. destruct (IH p H2 ltac:(lia)) as [q ->]. now exists q. }
      destruct Q as [q ->]. exists q. left. split; [reflexivity|]. rewrite <- !app_assoc in H. apply app_inv_head in H. rewrite <- !app_assoc. now symmetry. }
    destruct Q as (q & [[E1 E2]|[]]). subst m.
    (* [q] is shorter than the marker, so [c] would be inside it *)
    assert (X : exists y, p ++ q = q ++ [c] ++ y).
    { clear - E2 Hp. destruct p as [|x p]; [easy|]. clear Hp.
      assert (Lq : List.length (q ++ [c]) <= List.length ((x :: p) ++ q)) by (rewrite !app_length; cbn; lia).
      rewrite app_assoc in E2. rewrite <- (app_assoc ((x :: p) ++ q) [c] r) in E2. revert E2 Lq.
      generalize ((x :: p) ++ q) as u. generalize ([c] ++ r) as w. intros w u E2 Lq.
      assert (Y : exists y, u = (q ++ [c]) ++ y).
      { revert u E2 Lq. generalize (q ++ [c]) as v. induction v as [|z v IH]; intros u E2 Lq; [now exists u|]. destruct u as [|z' u]; cbn in *; [lia|].
        inversion E2; subst. destruct (IH u H1 ltac:(lia)) as [y ->]. now exists y. }
      destruct Y as [y ->]. exists y. now rewrite <- app_assoc. }
    destruct X as [y X]. apply Nc. rewrite X. apply in_or_app. right. now left.
Qed.
Lemma split1_first marker pre rest : ends_only marker -> ~ occurs marker pre -> split1 marker (pre ++ marker ++ rest) = Some (pre, rest).
Proof.
  intros Eo Np. destruct (split1 marker (pre ++ marker ++ rest)) as [[a b]|] eqn:S.
  - destruct (split1_some S) as [E M]. specialize (M pre rest eq_refl).
    assert (L : List.length pre <= List.length a) by (eapply no_overlap; eauto).
    assert (a = pre).
    { assert (List.length a = List.length pre) by lia. clear - E H. revert pre E H. induction a as [|x a IH]; intros [|y pre] E H; cbn in *; try lia; [reflexivity|].
      injection E as -> E. f_equal. apply IH; [exact E|lia]. }
    subst a. apply app_inv_head in E. apply app_inv_head in E. now subst.
  - apply split1_none in S. destruct S. now exists pre, rest.
Qed.
Lemma markers_end : ends_only inbound_marker /\ ends_only outbound_marker.
Proof.
  split; [exists (s "======== BEGIN INBOUND STREAM ========" ++ [13%N]), 10%N|exists (s "======== BEGIN OUTBOUND STREAM ========" ++ [13%N]), 10%N];
    (split; [reflexivity|]); vm_compute; intuition discriminate.
Qed.

(** The scheme is given by the end of the name of the file. *)
Inductive scheme_is (path : str) : option str -> Prop :=
| scheme_https r : path = r ++ s ".https" -> scheme_is path (Some (s "https"))
| scheme_none r : path = r ++ s ".noscheme" -> scheme_is path None
| scheme_http : (forall r, path <> r ++ s ".https") -> (forall r, path <> r ++ s ".noscheme") -> scheme_is path (Some (s "http")).

Lemma ends_with_spec a b : ends_with a b = true <-> exists r, a = r ++ b.
Proof.
  unfold ends_with. rewrite starts_with_spec. split; intros [r H].
  - exists (rev r). rewrite <- (rev_involutive a), H, rev_app_distr, rev_involutive. reflexivity.
  - subst. exists (rev r). apply rev_app_distr.
Qed.

(** C42.  A combined file is split into exactly its three parts, and everything
    else is rejected. *)
Theorem C42_combined : forall utf8 path data inbound outbound scheme preamble,
  parse_combined utf8 path data = Ok (inbound, outbound, scheme, preamble) <->
  exists pre,
    data = pre ++ s "======== BEGIN INBOUND STREAM ========" ++ [13; 10]%N
           ++ inbound ++ s "======== BEGIN OUTBOUND STREAM ========" ++ [13; 10]%N ++ outbound
    /\ ~ occurs (s "======== BEGIN INBOUND STREAM ========" ++ [13; 10]%N) pre
    /\ ~ occurs (s "======== BEGIN OUTBOUND STREAM ========" ++ [13; 10]%N) inbound
    /\ utf8 pre = Some preamble
    /\ scheme_is path scheme.
Proof.
  intros utf8 path data inbound outbound scheme preamble.
  assert (Sch : scheme_is path scheme <-> scheme = scheme_of path).
  { unfold scheme_of. destruct (ends_with path (s ".https")) eqn:E1; [|destruct (ends_with path (s ".noscheme")) eqn:E2].
    - apply ends_with_spec in E1. destruct E1 as [r E1]. split.
      + intros [r'|r' K|K]; [reflexivity| |].
        * exfalso. rewrite E1 in K. apply (f_equal (@rev N)) in K. rewrite !rev_app_distr in K. discriminate.
        * destruct (K r E1).
      + intros ->. econstructor 1. eassumption.
    - assert (N1 : forall r, path <> r ++ s ".https") by (intros r K; assert (ends_with path (s ".https") = true) by (apply ends_with_spec; eauto); congruence).
      apply ends_with_spec in E2. destruct E2 as [r E2]. split.
      + intros [r' K|r' K|_ K]; [destruct (N1 _ K)|reflexivity|destruct (K r E2)].
      + intros ->. econstructor 2. eassumption.
    - assert (N1 : forall r, path <> r ++ s ".https") by (intros r K; assert (ends_with path (s ".https") = true) by (apply ends_with_spec; eauto); congruence).
      assert (N2 : forall r, path <> r ++ s ".noscheme") by (intros r K; assert (ends_with path (s ".noscheme") = true) by (apply ends_with_spec; eauto); congruence).
      split; [intros [r K|r K|]; [destruct (N1 _ K)|destruct (N2 _ K)|reflexivity]|]. intros ->. now constructor 3. }
  setoid_rewrite Sch. clear Sch.
  change (parse_combined utf8 path data = Ok (inbound, outbound, scheme, preamble) <->
    exists pre, data = pre ++ inbound_marker ++ inbound ++ outbound_marker ++ outbound
    /\ ~ occurs inbound_marker pre /\ ~ occurs outbound_marker inbound /\ utf8 pre = Some preamble /\ scheme = scheme_of path).
  destruct markers_end as [M1 M2].
  assert (First : forall m x a b, split1 m x = Some (a, b) -> m <> [] -> ~ occurs m a).
  { intros m x a b S Ne (u & v & ->). destruct (split1_some S) as [E M]. rewrite <- app_assoc in E. rewrite <- app_assoc in E. specialize (M _ _ E).
    rewrite !app_length in M. destruct m; [easy|]. cbn in M. lia. }
  split.
  - unfold parse_combined. destruct (split1 inbound_marker data) as [[pre rest]|] eqn:S1; [|discriminate].
    destruct (utf8 pre) as [p|] eqn:U; [|discriminate]. destruct (split1 outbound_marker rest) as [[i o]|] eqn:S2; [|discriminate].
    intro H. inversion H; subst. exists pre. destruct (split1_some S1) as [E1 _]. destruct (split1_some S2) as [E2 _].
    split; [rewrite E1, E2; reflexivity|]. split; [eapply First; [eassumption|discriminate]|]. split; [eapply First; [eassumption|discriminate]|]. auto.
  - intros (pre & -> & N1 & N2 & U & ->). unfold parse_combined. rewrite (split1_first _ M1 N1), U, (split1_first _ M2 N2). reflexivity.
Qed.
Print Assumptions C42_combined.

Example C42_example :
  let data := s "Some notes" ++ inbound_marker ++ s "GET / HTTP/1.1" ++ outbound_marker ++ s "HTTP/1.1 200 OK" in
  parse_combined Some (s "x.https") data = Ok (s "GET / HTTP/1.1", s "HTTP/1.1 200 OK", Some (s "https"), s "Some notes").
Proof. reflexivity. Qed.
