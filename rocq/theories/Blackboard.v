(** Model of [Blackboard] (httpolice/blackboard.py) and of the tree of
    blackboards that an [Exchange] is (httpolice/exchange.py:10-44). *)
From Verif Require Import Base.
Open Scope nat_scope.
Unset Strict Implicit.

(** * Objects *)

(** Messages and exchanges, by identity. *)
Inductive obj := Msg (n : nat) | Exch (n : nat).
Definition obj_eqb (a b : obj) : bool :=
  match a, b with
  | Msg x, Msg y => Nat.eqb x y
  | Exch x, Exch y => Nat.eqb x y
  | _, _ => false
  end.
Lemma obj_eqb_eq a b : obj_eqb a b = true <-> a = b.
Proof. destruct a, b; cbn; rewrite ?Nat.eqb_eq; split; congruence. Qed.

(** An iterable of notice ids: a collection, which gives its elements every
    time, or an iterator, which gives them once. *)
Inductive iterable := Collection (l : list N) | Iterator (l : list N).
(** Run through an iterable: its elements and what it gives the next time. *)
Definition consume (it : iterable) : list N * iterable :=
  match it with
  | Collection l => (l, Collection l)
  | Iterator l => (l, Iterator [])
  end.

Section Blackboard.
(** The context of a complaint, and [==] on contexts: any relation. *)
Context {Ctx : Type}.
Variable same_ctx : Ctx -> Ctx -> bool.
(** Is the id a key of [all_notices]? (httpolice/notice.py:170-183) *)
Variable catalogue : N -> bool.
(** [exch.request] and [exch.responses] (httpolice/exchange.py:30-35). *)
Variable request_of : nat -> option nat.
Variable responses_of : nat -> list nat.

(** [Complaint]: a notice and a context (httpolice/blackboard.py:7-17).  There
    is one notice object per id, so notices are equal when their ids are. *)
Definition complaint : Type := N * Ctx.
Definition same (a b : complaint) : bool := N.eqb (fst a) (fst b) && same_ctx (snd a) (snd b).

(** [_complaints] and [_silenced] (httpolice/blackboard.py:43-46). *)
Record board := Board { b_complaints : list complaint; b_silenced : list N }.
Definition new_board : board := Board [] [].
Definition heap : Type := obj -> board.
Definition put (h : heap) (o : obj) (b : board) : heap := fun x => if obj_eqb x o then b else h x.

(** [Blackboard.children] and [Exchange.children] (httpolice/blackboard.py:48-50,
    httpolice/exchange.py:37-43). *)
Definition children (o : obj) : list obj :=
  match o with
  | Msg _ => []
  | Exch e => (match request_of e with Some q => [Msg q] | None => [] end) ++ map Msg (responses_of e)
  end.

(** [Blackboard.complain] (httpolice/blackboard.py:52-58).  [None] stands for
    the [KeyError] of an unknown id. *)
Definition complain (h : heap) (o : obj) (c : complaint) : option heap :=
  if catalogue (fst c) then
    let b := h o in
    Some (if existsb (fun old => same old c) (b_complaints b) then h
          else put h o (Board (b_complaints b ++ [c]) (b_silenced b)))
  else None.

(** [self._silenced.update(notice_ids)] (httpolice/blackboard.py:67). *)
Definition mute (h : heap) (o : obj) (l : list N) : heap :=
  put h o (Board (b_complaints (h o)) (b_silenced (h o) ++ l)).

(** [Blackboard.silence] (httpolice/blackboard.py:60-69).  The recursion is two
    levels deep, because messages have no children. *)
Definition silence_leaf (h : heap) (o : obj) (it : iterable) : heap * iterable :=
  let (l, it') := consume it in (mute h o l, it').
Definition silence (h : heap) (o : obj) (it : iterable) : heap :=
  let (h', it') := silence_leaf h o it in
  fst (fold_left (fun st child => silence_leaf (fst st) child (snd st)) (children o) (h', it')).

(** [Blackboard.complaints], also called [notices]
    (httpolice/blackboard.py:71-84). *)
Definition complaints (h : heap) (o : obj) : list complaint :=
  filter (fun c => negb (existsb (N.eqb (fst c)) (b_silenced (h o)))) (b_complaints (h o)).

(** A use of the interface. *)
Inductive op := Complain (o : obj) (c : complaint) | Silence (o : obj) (it : iterable).
Definition step (h : heap) (x : op) : heap :=
  match x with
  | Complain o c => match complain h o c with Some h' => h' | None => h end
  | Silence o it => silence h o it
  end.
Definition run (ops : list op) : heap := fold_left step ops (fun _ => new_board).

(** * What a history means, without any of the above *)

(** What was complained about on [o], in order, with repetitions. *)
Definition said (ops : list op) (o : obj) : list complaint :=
  flat_map (fun x => match x with
                     | Complain o' c => if obj_eqb o' o && catalogue (fst c) then [c] else []
                     | Silence _ _ => []
                     end) ops.

(** [o] is [o'] or part of it. *)
Definition part_of (o o' : obj) : Prop :=
  o = o' \/ exists e m, o = Msg m /\ o' = Exch e /\ (request_of e = Some m \/ In m (responses_of e)).

(** [id] was silenced on [o], or on an exchange of which [o] is part, giving a
    collection of ids. *)
Definition hushed (ops : list op) (o : obj) (id : N) : Prop :=
  exists o' l, In (Silence o' (Collection l)) ops /\ part_of o o' /\ In id l.

(** Every iterable is a collection. *)
Definition reiterable (ops : list op) : Prop :=
  forall o l, ~ In (Silence o (Iterator l)) ops.

(** Keep the first of each group of equal complaints. *)
Inductive firsts : list complaint -> list complaint -> Prop :=
| firsts_nil : firsts [] []
| firsts_new l r c : firsts l r -> (forall d, In d r -> same d c = false) -> firsts (l ++ [c]) (r ++ [c])
| firsts_old l r c d : firsts l r -> In d r -> same d c = true -> firsts (l ++ [c]) r.

(** * Lemmas *)

Lemma children_spec o o' : In o (children o') <-> exists e m, o = Msg m /\ o' = Exch e /\ (request_of e = Some m \/ In m (responses_of e)).
Proof.
  destruct o' as [m'|e]; cbn [children].
  - split; [intros []|]. intros (e & m & _ & K & _). discriminate.
  - rewrite in_app_iff, in_map_iff. split.
    + intros [H|(m & <- & H)]; [|exists e, m; auto]. destruct (request_of e) as [q|] eqn:Eq; [|destruct H].
      destruct H as [<-|[]]. exists e, q. auto.
    + intros (e' & m & -> & K & H). inversion K; subst e'. destruct H as [->|H]; [left; now left|right; now exists m].
Qed.
Lemma put_same h o b : put h o b o = b.
Proof. unfold put. destruct (obj_eqb o o) eqn:E; [reflexivity|]. assert (obj_eqb o o = true) by now apply obj_eqb_eq. congruence. Qed.
Lemma put_other h o b x : x <> o -> put h o b x = h x.
Proof. unfold put. destruct (obj_eqb x o) eqn:E; [apply obj_eqb_eq in E; congruence|reflexivity]. Qed.

Lemma mute_complaints h o l x : b_complaints (mute h o l x) = b_complaints (h x).
Proof.
  unfold mute. destruct (obj_eqb x o) eqn:E.
  - apply obj_eqb_eq in E. subst. now rewrite put_same.
  - rewrite put_other; [reflexivity|]. intros ->. assert (obj_eqb o o = true) by now apply obj_eqb_eq. congruence.
Qed.
Lemma mute_silenced h o l x id : In id (b_silenced (mute h o l x)) <-> In id (b_silenced (h x)) \/ (x = o /\ In id l).
Proof.
  unfold mute. destruct (obj_eqb x o) eqn:E.
  - apply obj_eqb_eq in E. subst. rewrite put_same. cbn. rewrite in_app_iff. tauto.
  - rewrite put_other; [|intros ->; assert (obj_eqb o o = true) by (now apply obj_eqb_eq); congruence].
    split; [tauto|]. intros [H|[-> _]]; [assumption|]. assert (obj_eqb o o = true) by now apply obj_eqb_eq. congruence.
Qed.

Lemma leaves_complaints l : forall st x,
  b_complaints (fst (fold_left (fun st child => silence_leaf (fst st) child (snd st)) l st) x) = b_complaints (fst st x).
Proof.
  induction l as [|o l IH]; intros st x; [reflexivity|]. cbn [fold_left]. rewrite IH.
  unfold silence_leaf. destruct (consume (snd st)). cbn. apply mute_complaints.
Qed.

Lemma leaves_silenced l ids : forall h x id,
  In id (b_silenced (fst (fold_left (fun st child => silence_leaf (fst st) child (snd st)) l (h, Collection ids)) x))
  <-> In id (b_silenced (h x)) \/ (In x l /\ In id ids).
Proof.
  induction l as [|o l IH]; intros h x id; [cbn; tauto|]. cbn [fold_left fst snd silence_leaf consume].
  rewrite IH, mute_silenced. cbn [In]. split; [intuition congruence|]. intuition (subst; tauto).
Qed.

Lemma leaves_silenced_nil l : forall h x id,
  In id (b_silenced (fst (fold_left (fun st child => silence_leaf (fst st) child (snd st)) l (h, Iterator [])) x))
  <-> In id (b_silenced (h x)).
Proof.
  induction l as [|o l IH]; intros h x id; [cbn; tauto|]. cbn [fold_left fst snd silence_leaf consume].
  rewrite IH, mute_silenced. cbn [In]. tauto.
Qed.

Lemma silence_complaints h o it x : b_complaints (silence h o it x) = b_complaints (h x).
Proof.
  unfold silence. destruct (silence_leaf h o it) as [h' it'] eqn:E. rewrite leaves_complaints. cbn.
  unfold silence_leaf in E. destruct (consume it). inversion E. apply mute_complaints.
Qed.
Lemma silence_silenced h o l x id :
  In id (b_silenced (silence h o (Collection l) x)) <-> In id (b_silenced (h x)) \/ (part_of x o /\ In id l).
Proof.
  unfold silence. cbn [silence_leaf consume]. rewrite leaves_silenced, mute_silenced, children_spec. unfold part_of. tauto.
Qed.
Lemma silence_once h o l x id :
  In id (b_silenced (silence h o (Iterator l) x)) <-> In id (b_silenced (h x)) \/ (x = o /\ In id l).
Proof.
  unfold silence. cbn [silence_leaf consume]. rewrite leaves_silenced_nil, mute_silenced. tauto.
Qed.

Lemma step_silenced_complain h o c x : b_silenced (step h (Complain o c) x) = b_silenced (h x).
Proof.
  cbn. unfold complain. destruct (catalogue (fst c)); [|reflexivity].
  destruct (existsb _ _); [reflexivity|].
  destruct (obj_eqb x o) eqn:E.
  - apply obj_eqb_eq in E. subst. now rewrite put_same.
  - rewrite put_other; [reflexivity|]. intros ->. assert (obj_eqb o o = true) by now apply obj_eqb_eq. congruence.
Qed.

Lemma run_snoc ops x : run (ops ++ [x]) = step (run ops) x.
Proof. unfold run. now rewrite fold_left_app. Qed.

Lemma run_silenced ops o id : reiterable ops -> In id (b_silenced (run ops o)) <-> hushed ops o id.
Proof.
  induction ops as [|x ops IH] using rev_ind; intro R.
  - cbn. split; [easy|]. intros (o' & l & [] & _).
  - assert (R' : reiterable ops) by (intros o0 l0 H; apply (R o0 l0), in_or_app; now left).
    specialize (IH R'). rewrite run_snoc. destruct x as [o' c|o' it].
    + rewrite step_silenced_complain, IH. unfold hushed. split; intros (o0 & l & H & K).
      * exists o0, l. split; [apply in_or_app; now left|assumption].
      * apply in_app_or in H. destruct H as [H|[H|[]]]; [exists o0, l; auto|discriminate].
    + destruct it as [l|l]; [|exfalso; apply (R o' l), in_or_app; right; now left].
      cbn [step]. rewrite silence_silenced, IH. unfold hushed. split.
      * intros [(o0 & l0 & H & K)|[H K]].
        -- exists o0, l0. split; [apply in_or_app; now left|assumption].
        -- exists o', l. split; [apply in_or_app; right; now left|tauto].
      * intros (o0 & l0 & H & K). apply in_app_or in H. destruct H as [H|[H|[]]].
        -- left. exists o0, l0. auto.
        -- right. inversion H; subst. assumption.
Qed.

Lemma run_complaints ops o : firsts (said ops o) (b_complaints (run ops o)).
Proof.
  induction ops as [|x ops IH] using rev_ind; [constructor|].
  rewrite run_snoc. unfold said. rewrite flat_map_app. fold (said ops o). cbn [flat_map].
  rewrite app_nil_r. destruct x as [o' c|o' it].
  - cbn [step]. unfold complain. destruct (catalogue (fst c)) eqn:Ec.
    + rewrite andb_true_r. destruct (obj_eqb o' o) eqn:Eo.
      * apply obj_eqb_eq in Eo. subst o'.
        destruct (existsb (fun old => same old c) (b_complaints (run ops o))) eqn:E.
        -- apply existsb_exists in E. destruct E as [d [Hd Hs]]. eapply firsts_old; eassumption.
        -- rewrite put_same. cbn. apply firsts_new; [assumption|]. intros d Hd.
           destruct (same d c) eqn:Es; [|reflexivity].
           assert (existsb (fun old => same old c) (b_complaints (run ops o)) = true) by (apply existsb_exists; eauto). congruence.
      * rewrite app_nil_r. destruct (existsb _ _); [assumption|]. rewrite put_other; [assumption|].
        intros ->. assert (obj_eqb o' o' = true) by now apply obj_eqb_eq. congruence.
    + rewrite andb_false_r, app_nil_r. assumption.
  - rewrite app_nil_r. cbn [step]. rewrite silence_complaints. assumption.
Qed.

Lemma firsts_fun l r r' : firsts l r -> firsts l r' -> r = r'.
Proof using same_ctx.
  intro H. revert r'. induction H as [|l r c H IH K|l r c d H IH K E]; intros r' H'.
  - inversion H' as [|l' ? ? ? ? E|l' ? ? ? ? ? ? E]; [reflexivity| |]; destruct l'; discriminate.
  - inversion H' as [E|l' r1 c' H1 K1 E|l' r1 c' d' H1 K1 E1 E].
    + destruct l; discriminate.
    + apply app_inj_tail in E. destruct E as [<- <-]. now rewrite (IH _ H1).
    + apply app_inj_tail in E. destruct E as [<- <-]. rewrite <- (IH _ H1) in *. rewrite (K _ K1) in E1. discriminate.
  - inversion H' as [E0|l' r1 c' H1 K1 E0|l' r1 c' d' H1 K1 E1 E0].
    + destruct l; discriminate.
    + apply app_inj_tail in E0. destruct E0 as [<- <-]. rewrite <- (IH _ H1) in *. rewrite (K1 _ K) in E. discriminate.
    + apply app_inj_tail in E0. destruct E0 as [<- <-]. now apply IH.
Qed.

Lemma firsts_in l r c : firsts l r -> In c r -> In c l.
Proof using same_ctx.
  induction 1; intro I; rewrite ?in_app_iff in *; [assumption|cbn in *; tauto|tauto].
Qed.

Lemma firsts_covers l r : (forall c, same c c = true) -> firsts l r -> forall c, In c l -> exists d, In d r /\ same d c = true.
Proof using same_ctx.
  intro R. induction 1 as [|l r c H IH K|l r c d H IH K E]; intros x Hx; [easy| |];
    apply in_app_or in Hx; destruct Hx as [Hx|[<-|[]]].
  - destruct (IH _ Hx) as [d [Hd Hs]]. exists d. split; [apply in_or_app; now left|assumption].
  - exists c. split; [apply in_or_app; right; now left|apply R].
  - now apply IH.
  - eauto.
Qed.

(** In an order-preserving sublist. *)
Inductive sublist {A} : list A -> list A -> Prop :=
| sub_nil : sublist [] []
| sub_skip x l r : sublist r l -> sublist r (x :: l)
| sub_keep x l r : sublist r l -> sublist (x :: r) (x :: l).

Lemma sublist_snoc_skip {A} (r l : list A) x : sublist r l -> sublist r (l ++ [x]).
Proof. induction 1; cbn; constructor; try constructor; assumption. Qed.
Lemma sublist_snoc {A} (r l : list A) x : sublist r l -> sublist (r ++ [x]) (l ++ [x]).
Proof. induction 1; cbn; repeat constructor; assumption. Qed.
Lemma firsts_sublist l r : firsts l r -> sublist r l.
Proof using same_ctx. induction 1; [constructor|now apply sublist_snoc|now apply sublist_snoc_skip]. Qed.

Lemma firsts_apart l r : firsts l r -> forall i j a b, i < j -> nth_error r i = Some a -> nth_error r j = Some b -> same a b = false.
Proof using same_ctx.
  induction 1 as [|l r c H IH K|l r c d H IH K E]; intros i j a b Hij Ha Hb; [destruct i; discriminate| |exact (IH i j a b Hij Ha Hb)].
  destruct (Nat.lt_ge_cases j (List.length r)) as [Hj|Hj].
  - rewrite nth_error_app1 in Ha by (clear - Hj Hij; lia). rewrite nth_error_app1 in Hb by assumption. exact (IH i j a b Hij Ha Hb).
  - rewrite nth_error_app2 in Hb by assumption. destruct (j - List.length r) eqn:Ej; cbn in Hb; [|destruct n; discriminate].
    inversion Hb; subst. rewrite nth_error_app1 in Ha by (clear - Hj Hij Ej; lia). apply K. eapply nth_error_In. eassumption.
Qed.

End Blackboard.

(** * Derived properties (httpolice/blackboard.py:87-112) *)

Section Derived.
(** Names of properties, values, exceptions and complaints. *)
Context {Val Exn Say : Type}.
(** The body of a getter of one given object.  It reads other derived
    properties of the object, makes complaints, and in the end returns or
    raises; it may compute anything from the values read.  Getters do not
    assign to properties, nor catch what reading a property raises. *)
Inductive body :=
| Ret (v : Val)
| Raise (e : Exn)
| Read (p : nat) (k : Val -> body)
| Tell (c : Say) (k : body).
Variable getter : nat -> body.
(** What Python raises when calls are nested too deeply. *)
Variable recursion_error : Exn.

(** What happens, in order: a getter is called; something is said. *)
Inductive event := Called (p : nat) | Told (c : Say).
(** [self.memoized] and what has happened. *)
Record state := State { memo : nat -> option Val; trace : list event }.
Definition set_memo (m : nat -> option Val) (p : nat) (v : Val) : nat -> option Val :=
  fun q => if Nat.eqb q p then Some v else m q.

(** Reading a property (httpolice/blackboard.py:101-106), and running the body
    of a getter.  [depth] is how many more calls can be nested. *)
Definition stored (st : state) (p : nat) (r : state * (Val + Exn)) : state * (Val + Exn) :=
  match r with
  | (st1, inl v) => (State (set_memo (memo st1) p v) (trace st1), inl v)
  | (st1, inr e) => (st1, inr e)
  end.
Fixpoint exec (depth : nat) : body -> state -> state * (Val + Exn) :=
  fix go (b : body) (st : state) : state * (Val + Exn) :=
    match b with
    | Ret v => (st, inl v)
    | Raise e => (st, inr e)
    | Tell c k => go k (State (memo st) (trace st ++ [Told c]))
    | Read p k =>
        match (match memo st p with
               | Some v => (st, inl v)
               | None =>
                   match depth with
                   | O => (st, inr recursion_error)
                   | S depth' => stored st p (exec depth' (getter p) (State (memo st) (trace st ++ [Called p])))
                   end
               end) with
        | (st', inl v) => go (k v) st'
        | (st', inr e) => (st', inr e)
        end
    end.
Definition read (depth : nat) (p : nat) (st : state) : state * (Val + Exn) :=
  match memo st p with
  | Some v => (st, inl v)
  | None =>
      match depth with
      | O => (st, inr recursion_error)
      | S depth' => stored st p (exec depth' (getter p) (State (memo st) (trace st ++ [Called p])))
      end
  end.

(** Uses of the object: reading a property, and assigning to it
    (httpolice/blackboard.py:108-110). *)
Inductive use := Get (p : nat) | Set_ (p : nat) (v : Val).
Definition do_use (depth : nat) (st : state) (u : use) : state * option (Val + Exn) :=
  match u with
  | Get p => let (st', r) := read depth p st in (st', Some r)
  | Set_ p v => (State (set_memo (memo st) p v) (trace st), None)
  end.
(** The results of the reads, with the final state. *)
Fixpoint uses (depth : nat) (st : state) (l : list use) : state * list (nat * (Val + Exn)) :=
  match l with
  | [] => (st, [])
  | u :: l' =>
      let (st1, r) := do_use depth st u in
      let (st2, rs) := uses depth st1 l' in
      (st2, match u, r with Get p, Some r => (p, r) :: rs | _, _ => rs end)
  end.
Definition fresh : state := State (fun _ => None) [].

(** ** Facts *)

Lemma exec_eq depth b st :
  exec depth b st =
  match b with
  | Ret v => (st, inl v)
  | Raise e => (st, inr e)
  | Tell c k => exec depth k (State (memo st) (trace st ++ [Told c]))
  | Read p k => match read depth p st with
                | (st', inl v) => exec depth (k v) st'
                | (st', inr e) => (st', inr e)
                end
  end.
Proof. destruct depth, b; reflexivity. Qed.

(** [m'] has all that [m] has. *)
Definition extends (m m' : nat -> option Val) : Prop := forall p v, m p = Some v -> m' p = Some v.
Lemma extends_refl m : extends m m. Proof. now intros p v. Qed.
Lemma extends_trans m1 m2 m3 : extends m1 m2 -> extends m2 m3 -> extends m1 m3.
Proof. intros H K p v E. auto. Qed.
Lemma extends_set m p v : m p = None -> extends m (set_memo m p v).
Proof.
  intros H q u E. unfold set_memo. destruct (Nat.eqb q p) eqn:Eq; [|assumption].
  apply Nat.eqb_eq in Eq. congruence.
Qed.

(** With [m] remembered, the body comes to reading [q], which is not. *)
Inductive reaches (m : nat -> option Val) (q : nat) : body -> Prop :=
| reaches_here k : m q = None -> reaches m q (Read q k)
| reaches_past p v k : m p = Some v -> reaches m q (k v) -> reaches m q (Read p k)
| reaches_tell c k : reaches m q k -> reaches m q (Tell c k).

(** A set of properties none of which can be read, because reading one leads
    to reading another. *)
Definition circular (m : nat -> option Val) (l : list nat) : Prop :=
  forall p, In p l -> m p = None /\ exists q, In q l /\ reaches m q (getter p).

Lemma exec_reaches depth m q b : reaches m q b -> forall st, memo st = m ->
  (forall st', memo st' = m -> exists st'' e, read depth q st' = (st'', inr e)) ->
  exists st' e, exec depth b st = (st', inr e).
Proof.
  induction 1 as [k Hq|p v k Hp H IH|c k H IH]; intros st E R; rewrite exec_eq.
  - destruct (R st E) as [st' [e ->]]. eauto.
  - unfold read. rewrite E, Hp. apply IH; assumption.
  - apply IH; [assumption|exact R].
Qed.

Lemma circular_raises m l : circular m l -> forall depth p st, In p l -> memo st = m -> exists st' e, read depth p st = (st', inr e).
Proof.
  intro C. induction depth as [|depth IH]; intros p st Hp E; destruct (C p Hp) as [Hn [q [Hq Hr]]];
    unfold read; rewrite E, Hn; [eauto|].
  destruct (exec_reaches (depth:=depth) Hr (st:=State m (trace st ++ [Called p])) eq_refl) as [st' [e H]].
  { intros st' E'. now apply IH. }
  rewrite H. cbn. eauto.
Qed.

Definition calls (t : list event) : list nat :=
  flat_map (fun x => match x with Called p => [p] | Told _ => [] end) t.

(** What is being evaluated, innermost first: each leads to the previous one. *)
Inductive stack (m : nat -> option Val) : list nat -> Prop :=
| stack_nil : stack m []
| stack_one p : m p = None -> stack m [p]
| stack_cons q p l : m q = None -> (forall m', extends m m' -> m' q = None -> reaches m' q (getter p)) ->
    stack m (p :: l) -> stack m (q :: p :: l).

Lemma stack_none m l : stack m l -> forall p, In p l -> m p = None.
Proof.
  induction 1 as [|p H|q p l H K S IH]; intros x Hx; [easy|destruct Hx as [<-|[]]; assumption|].
  destruct Hx as [<-|Hx]; auto.
Qed.
Lemma stack_extends m m' l : extends m m' -> (forall p, In p l -> m' p = None) -> stack m l -> stack m' l.
Proof.
  intros E N S. induction S as [|p H|q p l H K S IH]; constructor; try (apply N; cbn; tauto).
  - intros m2 E2. apply K. eapply extends_trans; eassumption.
  - apply IH. intros x Hx. apply N. now right.
Qed.

(** The members of the stack from its top down to [q]. *)
Fixpoint upto (q : nat) (l : list nat) : list nat :=
  match l with
  | [] => []
  | p :: l' => if Nat.eqb p q then [p] else p :: upto q l'
  end.
Lemma upto_in q l : In q l -> In q (upto q l).
Proof.
  induction l as [|p l IH]; [easy|]. cbn. destruct (Nat.eqb p q) eqn:E; [apply Nat.eqb_eq in E; subst; now left|].
  intros [->|H]; [rewrite Nat.eqb_refl in E; discriminate|]. right. auto.
Qed.
Lemma upto_sub q l x : In x (upto q l) -> In x l.
Proof.
  induction l as [|p l IH]; [easy|]. cbn. destruct (Nat.eqb p q); intros [->|H]; [now left|easy|now left|right; auto].
Qed.

(** Every member of the stack above the bottom of the cut is led to. *)
Lemma upto_chain m q l : stack m l -> forall x, In x (upto q l) -> x = hd q l \/ exists y, In y (upto q l) /\ reaches m y (getter x).
Proof.
  induction 1 as [|p H|z p l H K S IH]; intros x Hx; [easy| |].
  - cbn in Hx. destruct (Nat.eqb p q); destruct Hx as [<-|[]]; now left.
  - cbn [upto] in *. destruct (Nat.eqb z q) eqn:E.
    + destruct Hx as [<-|[]]. now left.
    + destruct Hx as [<-|Hx]; [now left|]. right.
      destruct (IH x Hx) as [->|[y [Hy Hr]]].
      * exists z. split; [now left|]. cbn. apply K; [apply extends_refl|assumption].
      * exists y. split; [now right|assumption].
Qed.

(** What the innermost evaluation still has to do. *)
Definition residual (m : nat -> option Val) (l : list nat) (b : body) : Prop :=
  match l with
  | [] => True
  | p :: _ => forall m', extends m m' -> forall q, reaches m' q b -> reaches m' q (getter p)
  end.
Lemma residual_extends m m' l b : extends m m' -> residual m l b -> residual m' l b.
Proof. destruct l; [easy|]. intros E R m2 E2. apply R. eapply extends_trans; eassumption. Qed.

(** Reading a property that is being evaluated cannot succeed. *)
Lemma reentry m l p k : stack m l -> residual m l (Read p k) -> In p l -> circular m (upto p l).
Proof.
  intros S R Hp x Hx. split; [apply (stack_none S), (@upto_sub p _ _ Hx)|].
  destruct (upto_chain S Hx) as [->|H]; [|assumption].
  exists p. split; [now apply upto_in|]. destruct l as [|y l]; [easy|]. cbn.
  apply R; [apply extends_refl|]. constructor. apply (stack_none S Hp).
Qed.

Definition good (st st' : state) (l : list nat) : Prop :=
  extends (memo st) (memo st')
  /\ (forall p, In p l -> memo st' p = None)
  /\ exists t, trace st' = trace st ++ t
     /\ NoDup (calls t)
     /\ (forall p, In p (calls t) <-> memo st p = None /\ memo st' p <> None).

Lemma good_refl st l : (forall p, In p l -> memo st p = None) -> good st st l.
Proof.
  intro H. split; [apply extends_refl|]. split; [assumption|]. exists []. rewrite app_nil_r.
  split; [reflexivity|]. split; [constructor|]. intro p. cbn. intuition congruence.
Qed.
Lemma NoDup_app_ {A} (a b : list A) : NoDup a -> NoDup b -> (forall x, In x a -> ~ In x b) -> NoDup (a ++ b).
Proof.
  intros Ha Hb D. induction Ha as [|x a Hx Ha IH]; [assumption|]. cbn. constructor.
  - rewrite in_app_iff. intros [H|H]; [easy|]. apply (D x); [now left|assumption].
  - apply IH. intros y Hy. apply D. now right.
Qed.
Lemma calls_app a b : calls (a ++ b) = calls a ++ calls b.
Proof. apply flat_map_app. Qed.
Lemma good_trans st1 st2 st3 l : good st1 st2 l -> good st2 st3 l -> good st1 st3 l.
Proof.
  intros (E1 & N1 & t1 & T1 & D1 & C1) (E2 & N2 & t2 & T2 & D2 & C2).
  split; [eapply extends_trans; eassumption|]. split; [assumption|].
  exists (t1 ++ t2). rewrite T2, T1, app_assoc. split; [reflexivity|].
  rewrite calls_app. split.
  - apply NoDup_app_; try assumption. intros x H1 H2. apply C1 in H1. apply C2 in H2. intuition congruence.
  - intro p. rewrite in_app_iff, C1, C2. split.
    + intros [[H1 H2]|[H1 H2]]; split; try assumption.
      * destruct (memo st2 p) eqn:E; [|easy]. rewrite (E2 _ _ E). discriminate.
      * destruct (memo st1 p) eqn:E; [|reflexivity]. rewrite (E1 _ _ E) in H1. discriminate.
    + intros [H1 H2]. destruct (memo st2 p) eqn:E; [left; split; congruence|right; split; congruence].
Qed.

Definition stuck_free (depth : nat) : Prop :=
  forall l p k st st' v, stack (memo st) l -> residual (memo st) l (Read p k) ->
    read depth p st = (st', inl v) -> good st st' l /\ memo st' p = Some v.

Lemma read_exec depth : stuck_free depth ->
  forall b l st st' v, stack (memo st) l -> residual (memo st) l b -> exec depth b st = (st', inl v) -> good st st' l.
Proof.
  intros F. induction b as [v0|e|p k IH|c k IH]; intros l st st' v S R H; rewrite exec_eq in H.
  - inversion H; subst. apply good_refl. now apply stack_none.
  - discriminate.
  - destruct (read depth p st) as [st1 [u|e]] eqn:Er; [|discriminate].
    destruct (F l p k st st1 u S R Er) as [G Gp].
    eapply good_trans; [exact G|]. destruct G as (E1 & N1 & _).
    eapply IH; [| |exact H].
    + eapply stack_extends; eassumption.
    + destruct l as [|x l]; [easy|]. intros m' E' q Hq. apply R; [eapply extends_trans; eassumption|].
      econstructor 2; [apply E', Gp|assumption].
  - destruct (IH l _ _ _ (S : stack (memo (State (memo st) (trace st ++ [Told c]))) l)
      (match l as l0 return residual (memo st) l0 (Tell c k) -> residual (memo st) l0 k with
       | [] => fun r => r
       | _ => fun r m' E q Hq => r m' E q (reaches_tell c Hq) end R) H) as (E1 & N1 & t & T & D & C).
    split; [exact E1|]. split; [exact N1|]. exists (Told c :: t). cbn [trace] in T. rewrite T, <- app_assoc.
    split; [reflexivity|]. split; [exact D|exact C].
Qed.

Lemma all_stuck_free depth : stuck_free depth.
Proof.
  induction depth as [|depth IH]; intros l p k st st' v S R H; pose proof H as H0; unfold read in H;
    (destruct (memo st p) as [u|] eqn:Em; [inversion H; subst; split; [apply good_refl; now apply stack_none|assumption]|]);
    [discriminate|].
  destruct (in_dec Nat.eq_dec p l) as [Hp|Hp].
  { exfalso. pose proof (reentry S R Hp) as C.
    destruct (circular_raises C (Datatypes.S depth) (st:=st) (upto_in Hp) eq_refl) as [st2 [e He]]. congruence. }
  destruct (exec depth (getter p) (State (memo st) (trace st ++ [Called p]))) as [st1 [u|e]] eqn:Ee; [|discriminate].
  cbn in H. inversion H; subst; clear H.
  assert (S' : stack (memo st) (p :: l)).
  { destruct l as [|x l]; [now constructor|]. constructor; try assumption.
    intros m' E' Hn. apply R; [assumption|]. now constructor. }
  destruct (read_exec IH (b:=getter p) (l:=p :: l) (st:=State (memo st) (trace st ++ [Called p])) S'
    (fun m' _ q Hq => Hq) Ee) as (E1 & N1 & t & T & D & C). cbn [memo trace] in *.
  assert (Np : memo st1 p = None) by (apply N1; now left).
  split; [|cbn; unfold set_memo; now rewrite Nat.eqb_refl].
  split; [|split].
  - cbn. eapply extends_trans; [exact E1|]. now apply extends_set.
  - intros x Hx. cbn. unfold set_memo. destruct (Nat.eqb x p) eqn:Ex; [apply Nat.eqb_eq in Ex; subst; easy|].
    apply N1. now right.
  - exists (Called p :: t). cbn [trace]. rewrite T, <- app_assoc. split; [reflexivity|]. cbn [calls flat_map app].
    fold (calls t). split.
    + constructor; [|assumption]. intro Hc. apply C in Hc. tauto.
    + intro x. cbn [In]. rewrite C. cbn. unfold set_memo. destruct (Nat.eqb x p) eqn:Ex.
      * apply Nat.eqb_eq in Ex. subst x. intuition congruence.
      * apply Nat.eqb_neq in Ex. intuition congruence.
Qed.

Lemma read_good depth p st st' v : read depth p st = (st', inl v) -> good st st' [] /\ memo st' p = Some v.
Proof. intro H. apply (@all_stuck_free depth [] p (fun v => Ret v) st st' v); [constructor|exact I|assumption]. Qed.
Lemma read_extends depth : forall p st st' r, read depth p st = (st', r) -> extends (memo st) (memo st').
Proof.
  assert (X : forall d, (forall p st st' r, read d p st = (st', r) -> extends (memo st) (memo st')) ->
    forall b st st' r, exec d b st = (st', r) -> extends (memo st) (memo st')).
  { intros d H. induction b as [v|e|p k IH|c k IH]; intros st st' r E; rewrite exec_eq in E.
    - inversion E. apply extends_refl.
    - inversion E. apply extends_refl.
    - destruct (read d p st) as [st1 [u|e]] eqn:Er; pose proof (H _ _ _ _ Er) as H1.
      + eapply extends_trans; [exact H1|]. eapply IH. eassumption.
      + inversion E. now subst.
    - apply (IH _ _ _ E). }
  induction depth as [|depth IH]; intros p st st' r E; unfold read in E;
    (destruct (memo st p) as [u|] eqn:Em; [inversion E; apply extends_refl|]).
  - inversion E. apply extends_refl.
  - destruct (exec depth (getter p) (State (memo st) (trace st ++ [Called p]))) as [st1 [u|e]] eqn:Ee.
    + cbn in E. inversion E; subst.
      assert (Er : read (S depth) p st = (State (set_memo (memo st1) p u) (trace st1), inl u)).
      { unfold read. rewrite Em, Ee. reflexivity. }
      apply read_good in Er. apply Er.
    + cbn in E. inversion E; subst. apply (X _ IH _ _ _ _ Ee).
Qed.

Lemma do_use_memo depth u st st' r p v : do_use depth st u = (st', r) -> (forall w, u <> Set_ p w) -> memo st p = Some v -> memo st' p = Some v.
Proof.
  destruct u as [q|q w]; cbn; intros E N H.
  - destruct (read depth q st) as [st1 r1] eqn:Er. inversion E; subst. apply (read_extends Er H).
  - inversion E; subst. cbn. unfold set_memo. destruct (Nat.eqb p q) eqn:Eq; [|assumption].
    apply Nat.eqb_eq in Eq. subst. now destruct (N w).
Qed.
Lemma uses_memo depth l : forall st p v, (forall w, ~ In (Set_ p w) l) -> memo st p = Some v -> memo (fst (uses depth st l)) p = Some v.
Proof.
  induction l as [|u l IH]; intros st p v N H; [assumption|]. cbn [uses].
  destruct (do_use depth st u) as [st1 r] eqn:E1. pose proof (IH st1 p v) as IH'.
  destruct (uses depth st1 l) as [st2 rs]. cbn [fst] in *. apply IH'; [firstorder|].
  eapply do_use_memo; [eassumption| |assumption]. intros w ->. apply (N w). now left.
Qed.

Lemma uses_app depth l1 : forall st l2,
  uses depth st (l1 ++ l2) = (fst (uses depth (fst (uses depth st l1)) l2),
                              snd (uses depth st l1) ++ snd (uses depth (fst (uses depth st l1)) l2)).
Proof.
  induction l1 as [|u l1 IH]; intros st l2; cbn [app uses]; [cbn; now destruct (uses depth st l2)|].
  destruct (do_use depth st u) as [st1 r]. rewrite IH.
  destruct (uses depth st1 l1) as [st2 rs]. cbn [fst snd].
  destruct (uses depth st2 l2) as [st3 rs']. cbn [fst snd].
  destruct u, r; reflexivity.
Qed.

(** Nothing is called twice. *)
Lemma uses_calls depth l : forall st st' rs, uses depth st l = (st', rs) -> (forall p e, ~ In (p, inr e) rs) ->
  exists t, trace st' = trace st ++ t /\ NoDup (calls t)
    /\ (forall p, In p (calls t) -> memo st p = None) /\ (forall p, memo st p <> None \/ In p (calls t) -> memo st' p <> None).
Proof.
  induction l as [|u l IH]; intros st st' rs H N; cbn [uses] in H.
  - inversion H; subst. exists []. rewrite app_nil_r. repeat split; cbn; try constructor; tauto.
  - destruct (do_use depth st u) as [st1 r] eqn:E1. destruct (uses depth st1 l) as [st2 rs'] eqn:E2.
    inversion H; subst; clear H. destruct u as [p|p v]; cbn in E1.
    + destruct (read depth p st) as [st1' r1] eqn:Er. inversion E1; subst; clear E1.
      destruct r1 as [v|e]; [|exfalso; apply (N p e); now left].
      destruct (read_good Er) as [(X1 & _ & t1 & T1 & D1 & C1) Gp].
      destruct (IH _ _ _ E2) as (t & T & D & C & M); [firstorder|].
      exists (t1 ++ t). rewrite T, T1, app_assoc, calls_app. split; [reflexivity|].
      assert (X : forall q, memo st q <> None -> memo st1 q <> None).
      { intros q Hq. destruct (memo st q) eqn:Eq; [|easy]. rewrite (X1 _ _ Eq). discriminate. }
      split; [|split].
      * apply NoDup_app_; try assumption. intros x H1 H2. apply C1 in H1. apply C in H2. tauto.
      * intros q Hq. apply in_app_or in Hq. destruct Hq as [Hq|Hq]; [now apply C1|].
        apply C in Hq. destruct (memo st q) eqn:Eq; [|reflexivity]. rewrite (X1 _ _ Eq) in Hq. discriminate.
      * intros q [Hq|Hq]; [apply M; left; auto|]. apply in_app_or in Hq. destruct Hq as [Hq|Hq]; [|auto].
        apply M. left. now apply C1.
    + inversion E1; subst; clear E1. destruct (IH _ _ _ E2 N) as (t & T & D & C & M). cbn in *.
      exists t. split; [assumption|]. split; [assumption|].
      assert (X : forall q, memo st q <> None -> set_memo (memo st) p v q <> None).
      { intros q Hq. unfold set_memo. destruct (Nat.eqb q p); [discriminate|assumption]. }
      split; [|intros q [Hq|Hq]; auto].
      intros q Hq. apply C in Hq. destruct (memo st q) eqn:Eq; [|reflexivity]. exfalso. apply (X q); [congruence|assumption].
Qed.
End Derived.
