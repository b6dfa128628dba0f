(** Properties C28, C29 and C31: what is visible on a message or exchange, and
    how often derived properties are evaluated. *)
From Verif Require Import Base Blackboard.
Open Scope nat_scope.
Unset Strict Implicit.

Section Visible.
Context {Ctx : Type}.
Variable same_ctx : Ctx -> Ctx -> bool.
Variable catalogue : N -> bool.
Variable request_of : nat -> option nat.
Variable responses_of : nat -> list nat.
Notation run := (run same_ctx catalogue request_of responses_of).
Notation said := (said catalogue).
Notation hushed := (hushed request_of responses_of).
Notation firsts := (firsts same_ctx).
Notation same := (same same_ctx).

(** C28.  Whatever complaints and silences there have been, in whatever order,
    the notices visible on an object are the distinct complaints made about it,
    in order of first occurrence, less those whose id was silenced, at any
    time, on the object or on the exchange it is in. *)
Theorem C28_silencing : forall ops o, reiterable ops ->
  exists distinct quiet,
    firsts (said ops o) distinct
    /\ (forall id, quiet id = true <-> hushed ops o id)
    /\ complaints (run ops) o = filter (fun c => negb (quiet (fst c))) distinct.
Proof.
  intros ops o R. exists (b_complaints (run ops o)), (fun id => existsb (N.eqb id) (b_silenced (run ops o))).
  split; [apply run_complaints|]. split; [|reflexivity].
  intro id. rewrite <- (@run_silenced _ same_ctx catalogue request_of responses_of ops o id R), existsb_exists.
  split; [intros [x [H E]]; apply N.eqb_eq in E; now subst|]. intro H. exists id. split; [assumption|apply N.eqb_refl].
Qed.

(** So when things are silenced does not matter: only that they are. *)
Theorem C28_any_time : forall ops1 ops2 o, reiterable ops1 -> reiterable ops2 ->
  said ops1 o = said ops2 o -> (forall id, hushed ops1 o id <-> hushed ops2 o id) ->
  complaints (run ops1) o = complaints (run ops2) o.
Proof.
  intros ops1 ops2 o R1 R2 S H.
  destruct (@C28_silencing ops1 o R1) as (d1 & q1 & F1 & Q1 & ->).
  destruct (@C28_silencing ops2 o R2) as (d2 & q2 & F2 & Q2 & ->).
  rewrite S in F1. rewrite (firsts_fun F1 F2). apply filter_ext. intro c. f_equal.
  specialize (H (fst c)). rewrite <- Q1, <- Q2 in H. destruct (q1 (fst c)), (q2 (fst c)); intuition congruence.
Qed.

(** The hypothesis is needed: given a generator, an exchange silences itself
    but not its messages. *)
Theorem C28_generator_refuted : forall (c : Ctx) e m id, catalogue id = true ->
  request_of e = Some m \/ In m (responses_of e) ->
  In (id, c) (complaints (run [Complain (Msg m) (id, c); Silence (Exch e) (Iterator [id])]) (Msg m)).
Proof.
  intros c e m id Hc _.
  change [Complain (Msg m) (id, c); Silence (Exch e) (Iterator [id])]
    with ([Complain (Msg m) (id, c)] ++ [Silence (Exch e) (Iterator [id])]).
  rewrite run_snoc. cbn [step]. unfold complaints. rewrite silence_complaints. apply filter_In.
  change (run [Complain (Msg m) (id, c)]) with (step same_ctx catalogue request_of responses_of (fun _ => new_board) (Complain (Msg m) (id, c))).
  split.
  - cbn [step]. unfold complain. cbn [fst]. rewrite Hc. cbn [new_board b_complaints existsb]. rewrite put_same. now left.
  - apply negb_true_iff. destruct (existsb _ _) eqn:X; [|reflexivity]. apply existsb_exists in X.
    destruct X as [x [Hx Ex]]. apply N.eqb_eq in Ex. cbn in Ex. subst x. apply (silence_once catalogue) in Hx.
    destruct Hx as [Hx|[Hx _]]; [|discriminate]. rewrite step_silenced_complain in Hx. destruct Hx.
Qed.

(** C29.  If nothing is silenced, then of equal complaints the first is
    visible and no other, and they are in the order in which they were made. *)
Theorem C29_once : forall ops o, (forall c, same_ctx c c = true) -> (forall o' it, ~ In (Silence o' it) ops) ->
  let visible := complaints (run ops) o in
  sublist visible (said ops o)
  /\ (forall i j a b, i < j -> nth_error visible i = Some a -> nth_error visible j = Some b -> same a b = false)
  /\ (forall c, In c (said ops o) -> exists d, In d visible /\ same d c = true).
Proof.
  intros ops o Re N.
  assert (R : reiterable ops) by (intros o' l H; apply (N o' _ H)).
  destruct (@C28_silencing ops o R) as (d & q & F & Q & ->). cbn zeta.
  assert (E : filter (fun c => negb (q (fst c))) d = d).
  { assert (K : forall l : list (@complaint Ctx), filter (fun c => negb (q (fst c))) l = l); [|apply K].
    induction l as [|c l IH]; [reflexivity|]. cbn. destruct (q (fst c)) eqn:Eq; [|cbn; now rewrite IH].
    apply Q in Eq. destruct Eq as (o' & l0 & H & _). now apply N in H. }
  rewrite E. split; [now apply (firsts_sublist F)|]. split; [now apply (firsts_apart F)|].
  apply firsts_covers; [|assumption]. intros [id c]. unfold same. cbn. rewrite N.eqb_refl. apply Re.
Qed.

(** The one that is kept is the first: a complaint unlike all before it is
    always recorded, right after what was recorded of those before it. *)
Theorem C29_first : forall ops1 ops2 o c, catalogue (fst c) = true ->
  (forall d, In d (said ops1 o) -> same d c = false) ->
  exists later, b_complaints (run (ops1 ++ Complain o c :: ops2) o) = b_complaints (run ops1 o) ++ c :: later.
Proof.
  intros ops1 ops2 o c Hc N. induction ops2 as [|x ops2 IH] using rev_ind.
  - exists []. rewrite run_snoc. cbn [step]. unfold complain. rewrite Hc.
    destruct (existsb _ _) eqn:E; [|now rewrite put_same].
    apply existsb_exists in E. destruct E as [d [Hd Hs]]. rewrite N in Hs; [discriminate|].
    eapply firsts_in; [apply run_complaints|exact Hd].
  - destruct IH as [later IH]. replace (ops1 ++ Complain o c :: ops2 ++ [x]) with ((ops1 ++ Complain o c :: ops2) ++ [x])
      by now rewrite <- app_assoc. rewrite run_snoc. destruct x as [o' c'|o' it].
    + cbn [step]. unfold complain. destruct (catalogue (fst c')); [|eauto].
      destruct (existsb _ _); [eauto|]. destruct (obj_eqb o o') eqn:Eo.
      * apply obj_eqb_eq in Eo. subst. rewrite put_same. cbn. rewrite IH. exists (later ++ [c']). now rewrite <- app_assoc.
      * rewrite put_other; [eauto|]. intros ->. assert (obj_eqb o' o' = true) by now apply obj_eqb_eq. congruence.
    + cbn [step]. rewrite silence_complaints. eauto.
Qed.
End Visible.
Print Assumptions C28_silencing.
Print Assumptions C28_any_time.
Print Assumptions C28_generator_refuted.
Print Assumptions C29_once.
Print Assumptions C29_first.

(** Two complaints on a response, one repeated, and the exchange silenced in
    between: both visible, the silenced one is not. *)
Example C28_C29_example :
  let run := run Nat.eqb (fun id => (1000 <=? id)%N) (fun _ => Some 1) (fun _ => [2; 3]) in
  let ops := [Complain (Msg 2) (1013%N, 7); Complain (Msg 2) (1000%N, 7); Silence (Exch 0) (Collection [1000%N]);
              Complain (Msg 2) (1013%N, 7); Complain (Msg 2) (1013%N, 8); Complain (Msg 3) (1000%N, 7)] in
  reiterable ops
  /\ complaints (run ops) (Msg 2) = [(1013%N, 7); (1013%N, 8)]
  /\ complaints (run ops) (Msg 3) = [].
Proof.
  split; [|now vm_compute]. intros o l H. cbn in H. intuition discriminate.
Qed.

Section DerivedProps.
Context {Val Exn Say : Type}.
Variable getter : nat -> @body Val Exn Say.
Variable recursion_error : Exn.
Notation uses := (uses getter recursion_error).
Notation read := (read getter recursion_error).

(** C31.  However the derived properties of a message are read and assigned,
    as long as no read raises, every getter is called at most once, and never
    once the property has been assigned (the next theorem). *)
Theorem C31_called_once : forall depth l st results,
  uses depth fresh l = (st, results) -> (forall p e, ~ In (p, inr e) results) ->
  NoDup (calls (trace st)).
Proof.
  intros depth l st results H N. destruct (uses_calls H N) as (t & T & D & _). now rewrite T.
Qed.

Theorem C31_assigned : forall depth l1 p v l2 st results,
  uses depth fresh (l1 ++ Set_ p v :: l2) = (st, results) -> (forall q e, ~ In (q, inr e) results) ->
  ~ In p (calls (trace (fst (uses depth fresh l1)))) -> ~ In p (calls (trace st)).
Proof.
  intros depth l1 p v l2 st results H N Q Hp. rewrite uses_app in H.
  destruct (uses depth fresh l1) as [st1 rs1] eqn:E1. cbn [fst snd] in H.
  destruct (uses depth st1 (Set_ p v :: l2)) as [st2 rs2] eqn:E2. cbn [fst snd] in H. inversion H; subst; clear H.
  cbn [uses do_use] in E2. destruct (uses depth (State (set_memo (memo st1) p v) (trace st1)) l2) as [st3 rs3] eqn:E3.
  inversion E2; subst; clear E2.
  assert (N3 : forall q e, ~ In (q, inr e) rs2) by (intros q e H; apply (N q e), in_or_app; now right).
  destruct (uses_calls E3 N3) as (t & T & D & C & _). cbn in T. rewrite T, calls_app, in_app_iff in Hp.
  destruct Hp as [Hp|Hp].
  - now apply Q.
  - apply C in Hp. cbn in Hp. unfold set_memo in Hp. rewrite Nat.eqb_refl in Hp. discriminate.
Qed.

(** Once read, a property keeps its value, whatever else is read or assigned,
    even if that raises: the next read returns it and does nothing. *)
Theorem C31_same_value : forall depth l1 p v l2,
  snd (read depth p (fst (uses depth fresh l1))) = inl v ->
  (forall w, ~ In (Set_ p w) l2) ->
  let later := fst (uses depth fresh (l1 ++ Get p :: l2)) in
  read depth p later = (later, inl v).
Proof.
  intros depth l1 p v l2 H N later.
  assert (K : memo later p = Some v).
  { subst later. rewrite uses_app. cbn [fst]. destruct (uses depth fresh l1) as [st1 rs1]. cbn [fst] in *.
    cbn [uses do_use]. destruct (read depth p st1) as [st2 r] eqn:Er. cbn in H. subst r.
    pose proof (uses_memo getter recursion_error depth (l:=l2) (st:=st2) N (proj2 (read_good Er))) as M.
    destruct (uses depth st2 l2) as [st3 rs3]. exact M. }
  unfold read. now rewrite K.
Qed.

Theorem C31_assigned_value : forall depth l1 p v l2, (forall w, ~ In (Set_ p w) l2) ->
  let later := fst (uses depth fresh (l1 ++ Set_ p v :: l2)) in
  read depth p later = (later, inl v).
Proof.
  intros depth l1 p v l2 N later.
  assert (K : memo later p = Some v).
  { subst later. rewrite uses_app. cbn [fst]. destruct (uses depth fresh l1) as [st1 rs1]. cbn [fst uses do_use].
    pose proof (uses_memo getter recursion_error depth (l:=l2) (st:=State (set_memo (memo st1) p v) (trace st1)) (v:=v) N) as M.
    destruct (uses depth _ l2) as [st3 rs3]. apply M. cbn. unfold set_memo. now rewrite Nat.eqb_refl. }
  unfold read. now rewrite K.
Qed.
End DerivedProps.
Print Assumptions C31_called_once.
Print Assumptions C31_assigned.
Print Assumptions C31_same_value.
Print Assumptions C31_assigned_value.

(** A getter that raises is called again by the next read. *)
Theorem C31_raising_refuted :
  ~ (forall (getter : nat -> @body nat nat nat) depth l st results,
       uses getter 0 depth fresh l = (st, results) -> NoDup (calls (trace st))).
Proof.
  intro H. specialize (H (fun _ => Raise 1) 9 [Get 5; Get 5] _ _ eq_refl). vm_compute in H.
  inversion H as [|x l N _]. apply N. now left.
Qed.
Print Assumptions C31_raising_refuted.

(** Property 0 reads 1 twice and complains, property 1 complains. *)
Example C31_example :
  let getter := fun p => match p with
                         | O => Read 1 (fun a => Tell 1304 (Read 1 (fun b => Ret (a + b))))
                         | _ => Tell 1036 (@Ret nat nat nat 21)
                         end in
  let r := uses getter 0 10 fresh [Get 0; Get 1; Set_ 2 5; Get 0; Get 2] in
  snd r = [(0, inl 42); (1, inl 21); (0, inl 42); (2, inl 5)]
  /\ trace (fst r) = [Called 0; Called 1; Told 1036; Told 1304].
Proof. now vm_compute. Qed.
