(** Proofs about the interleaving of connections. *)
From Coq Require Import ZifyBool ZifyNat ZifyN Permutation Sorted.
From Verif Require Import Base Inputs.
Open Scope nat_scope.
Unset Strict Implicit.

(** * Specification *)

(** [out] is made by taking, again and again, the first element of one of the
    lists, until all are empty. *)
Inductive interleaving {E} : list (list E) -> list E -> Prop :=
| interleaving_nil ls : Forall (fun l => l = []) ls -> interleaving ls []
| interleaving_cons ls i e l out :
    nth_error ls i = Some (e :: l) -> interleaving (replace i l ls) out -> interleaving ls (e :: out).
Definition prefix_of {E} (l l' : list E) : Prop := exists r, l' = l ++ r.

(** * Lists *)

Lemma replace_same {A} i (x : A) l : nth_error l i = Some x -> replace i x l = l.
Proof. revert i. induction l as [|y l IH]; intros [|i] H; cbn in *; try easy; [congruence|]. now rewrite IH. Qed.
Lemma replace_map {A B} (f : A -> B) i x l : map f (replace i x l) = replace i (f x) (map f l).
Proof. revert i. induction l as [|y l IH]; intros [|i]; cbn; try reflexivity. now rewrite IH. Qed.
Lemma replace_length {A} i (x : A) l : List.length (replace i x l) = List.length l.
Proof. revert i. induction l as [|y l IH]; intros [|i]; cbn; try reflexivity. now rewrite IH. Qed.
Lemma replace_nth {A} i (x : A) l : i < List.length l -> nth_error (replace i x l) i = Some x.
Proof. revert i. induction l as [|y l IH]; intros [|i] H; cbn in *; try lia; [reflexivity|]. apply IH. lia. Qed.
Lemma replace_in {A} i (x y : A) l : In y (replace i x l) -> y = x \/ In y l.
Proof.
  revert i. induction l as [|z l IH]; intros [|i]; cbn; try tauto.
  - intros [->|H]; tauto.
  - intros [->|H]; [tauto|]. destruct (IH _ H); tauto.
Qed.
Lemma replace_forall {A} (P : A -> Prop) i x l : Forall P l -> P x -> Forall P (replace i x l).
Proof. intros H Hx. apply Forall_forall. intros y Hy. apply replace_in in Hy. destruct Hy as [->|Hy]; [assumption|]. rewrite Forall_forall in H. auto. Qed.
Lemma nth_lt {A} i (x : A) l : nth_error l i = Some x -> i < List.length l.
Proof. intro H. apply nth_error_Some. congruence. Qed.
Lemma forall2_replace {A B} (R : A -> B -> Prop) i a b la lb :
  Forall2 R la lb -> R a b -> Forall2 R (replace i a la) (replace i b lb).
Proof. intros H. revert i. induction H; intros [|i] K; cbn; constructor; auto. Qed.
Lemma replace_replace {A} i (x y : A) l : replace i x (replace i y l) = replace i x l.
Proof. revert i. induction l as [|z l IH]; intros [|i]; cbn; try reflexivity. now rewrite IH. Qed.
Lemma forall2_refl {A} (R : A -> A -> Prop) l : (forall x, R x x) -> Forall2 R l l.
Proof. intro H. induction l; constructor; auto. Qed.

Section Proofs.
Context {E : Type}.
Variable own_time : E -> clock.
Notation lane := (@lane E).
Notation loop := (loop own_time).

(** What a lane will still produce. *)
Definition contents (l : lane) : list E :=
  match position l with
  | None => []
  | Some (_, Some e) => e :: s_items (source_of l)
  | Some (_, None) => s_items (source_of l)
  end.
(** A lane that can cause no exception. *)
Definition lane_safe (l : lane) : Prop :=
  s_fails (source_of l) = false
  /\ (forall e, In e (s_items (source_of l)) -> own_time e <> Overflows)
  /\ (forall t, position l = Some (t, None) -> s_items (source_of l) <> []).

(** ** The choice of a lane *)

(** The state of the search after the lanes before [i]. *)
Lemma pick_spec (lanes : list lane) : forall i best k,
  pick i best lanes = Some k ->
  (exists l t o, i <= k /\ nth_error lanes (k - i) = Some l /\ position l = Some (t, o)
     /\ (t = None \/ exists u, t = Some u
          /\ (forall l' u' o', In l' lanes -> position l' = Some (u', o') -> exists v, u' = Some v /\ (u <= v)%Z)
          /\ match best with Some (_, m) => (u < m)%Z | None => True end))
  \/ exists m, best = Some (k, m) /\ (forall l' u' o', In l' lanes -> position l' = Some (u', o') -> exists v, u' = Some v /\ (m <= v)%Z).
Proof.
  induction lanes as [|l lanes IH]; intros i best k H; cbn in H.
  - destruct best as [[j m]|]; [|discriminate]. cbn in H. inversion H; subst. right. exists m. split; [reflexivity|]. easy.
  - destruct (position l) as [[[t|] o]|] eqn:P.
    + apply IH in H. destruct H as [(l1 & t1 & o1 & L & N1 & P1 & C)|(m & B & C)].
      * left. exists l1, t1, o1. split; [lia|]. split; [replace (k - i) with (S (k - S i)) by lia; exact N1|]. split; [exact P1|].
        destruct C as [->|(u & -> & C & B)]; [now left|right]. exists u. split; [reflexivity|].
        assert (U : (u < t)%Z /\ match best with Some (_, m) => (u < m)%Z | None => True end).
        { destruct best as [[j m]|]; [|cbn in B; auto]. destruct (Z.ltb_spec t m); cbn in B; lia. }
        split; [|apply U]. intros l' u' o' [<-|I'] P'; [|eauto]. rewrite P in P'. inversion P'; subst. exists t. split; [reflexivity|lia].
      * destruct best as [[j m0]|].
        -- destruct (Z.ltb_spec t m0) as [T|T].
           ++ inversion B; subst. left. exists l, (Some m), o. split; [lia|]. rewrite Nat.sub_diag. split; [reflexivity|]. split; [assumption|].
              right. exists m. split; [reflexivity|]. split; [|assumption].
              intros l' u' o' [<-|I'] P'; [|eauto]. rewrite P in P'. inversion P'; subst. exists m. split; [reflexivity|lia].
           ++ inversion B; subst. right. exists m. split; [reflexivity|].
              intros l' u' o' [<-|I'] P'; [|eauto]. rewrite P in P'. inversion P'; subst. exists t. split; [reflexivity|lia].
        -- inversion B; subst. left. exists l, (Some m), o. split; [lia|]. rewrite Nat.sub_diag. split; [reflexivity|]. split; [assumption|].
           right. exists m. split; [reflexivity|]. split; [|exact I].
           intros l' u' o' [<-|I'] P'; [|eauto]. rewrite P in P'. inversion P'; subst. exists m. split; [reflexivity|lia].
    + inversion H; subst. left. exists l, None, o. rewrite Nat.sub_diag. split; [lia|]. split; [reflexivity|]. split; [assumption|]. now left.
    + apply IH in H. destruct H as [(l1 & t1 & o1 & L & N1 & P1 & C)|(m & B & C)].
      * left. exists l1, t1, o1. split; [lia|]. split; [replace (k - i) with (S (k - S i)) by lia; exact N1|]. split; [exact P1|].
        destruct C as [->|(u & -> & C & B)]; [now left|right]. exists u. split; [reflexivity|]. split; [|assumption].
        intros l' u' o' [<-|I'] P'; [congruence|eauto].
      * right. exists m. split; [assumption|]. intros l' u' o' [<-|I'] P'; [congruence|eauto].
Qed.
Lemma pick_none (lanes : list lane) : forall i best, pick i best lanes = None -> best = None /\ Forall (fun l => position l = None) lanes.
Proof.
  induction lanes as [|l lanes IH]; intros i best H; cbn in H.
  - destruct best; [discriminate|auto].
  - destruct (position l) as [[[t|] o]|] eqn:P; [|discriminate|].
    + apply IH in H. destruct best as [[j m]|]; destruct H as [H _]; [destruct (t <? m)%Z|]; discriminate.
    + apply IH in H. destruct H as [H1 H2]. split; [assumption|]. now constructor.
Qed.
Lemma pick0 (lanes : list lane) k : pick 0 None lanes = Some k ->
  exists l t o, nth_error lanes k = Some l /\ position l = Some (t, o)
    /\ (t = None \/ exists u, t = Some u
          /\ (forall l' u' o', In l' lanes -> position l' = Some (u', o') -> exists v, u' = Some v /\ (u <= v)%Z)).
Proof.
  intro H. apply pick_spec in H. destruct H as [(l & t & o & _ & N1 & P1 & C)|(m & B & _)]; [|discriminate].
  rewrite Nat.sub_0_r in N1. exists l, t, o. split; [assumption|]. split; [assumption|].
  destruct C as [C|(u & C & D & _)]; [now left|right; eauto].
Qed.

Lemma size_replace i (l l' : lane) lanes : nth_error lanes i = Some l -> lane_size l' < lane_size l -> size (replace i l' lanes) < size lanes.
Proof.
  unfold size. revert i. induction lanes as [|x lanes IH]; intros [|i] H L; cbn in *; try discriminate.
  - inversion H; subst. lia.
  - specialize (IH _ H L). lia.
Qed.

(** One iteration, as a relation: it finishes, stops with an exception, goes on
    without or with a yielded exchange. *)
Inductive step (lanes : list lane) : list E -> list lane -> Prop :=
| step_start i src time e items time' :
    pick 0 None lanes = Some i ->
    nth_error lanes i = Some (mkLane src (Some (time, None))) ->
    s_items src = e :: items -> exchange_time own_time e time = Some time' ->
    (time = None \/ exists t t', time = Some t /\ time' = Some t' /\ (t < t')%Z) ->
    step lanes [] (replace i (mkLane (mkSource items (s_fails src)) (Some (time', Some e))) lanes)
| step_last i l src time o e :
    pick 0 None lanes = Some i ->
    nth_error lanes i = Some l -> position l = Some (time, o) ->
    contents l = [e] -> s_fails src = false -> s_items src = [] -> s_fails (source_of l) = false ->
    (o = Some e \/ o = None /\ exists t, time = Some t /\ forall t', exchange_time own_time e time = Some (Some t') -> (t' <= t)%Z) ->
    step lanes [e] (replace i (mkLane src None) lanes)
| step_next i l time o e e' items time' :
    pick 0 None lanes = Some i ->
    nth_error lanes i = Some l -> position l = Some (time, o) ->
    contents l = e :: e' :: items ->
    exchange_time own_time e' time = Some time' ->
    (o = Some e \/ o = None /\ exists t, time = Some t /\ forall t', exchange_time own_time e time = Some (Some t') -> (t' <= t)%Z) ->
    step lanes [e] (replace i (mkLane (mkSource items (s_fails (source_of l))) (Some (time', Some e'))) lanes).

(** Why it can stop early, having yielded [ys]. *)
Inductive stop (lanes : list lane) : list E -> ending -> Prop :=
| stop_done : Forall (fun l => position l = None) lanes -> stop lanes [] Finished
| stop_bad i l ys h :
    nth_error lanes i = Some l -> prefix_of ys (contents l) -> List.length ys <= 1 ->
    h <> Finished -> h <> OutOfFuel -> (h = Raised_AttributeError -> exists t, position l = Some (t, None) /\ s_items (source_of l) = [] /\ s_fails (source_of l) = false) ->
    ~ (lane_safe l) -> stop lanes ys h.

Lemma body_cases continue lanes :
  (exists ys h, stop lanes ys h /\ body own_time continue lanes = (ys, h))
  \/ exists ys lanes', step lanes ys lanes' /\ size lanes' < size lanes
       /\ body own_time continue lanes = (let (out, h) := continue lanes' in (ys ++ out, h)).
Proof.
  assert (Em : forall i l src time o e,
    pick 0 None lanes = Some i -> nth_error lanes i = Some l -> position l = Some (time, o) ->
    contents l = e :: s_items src -> s_fails src = s_fails (source_of l) ->
    (forall x, In x (s_items src) -> In x (s_items (source_of l))) ->
    lane_size (mkLane src None) < lane_size l ->
    (o = Some e \/ o = None /\ exists t, time = Some t /\ forall t', exchange_time own_time e time = Some (Some t') -> (t' <= t)%Z) ->
    (exists ys h, stop lanes ys h /\ emit own_time continue lanes i src time e = (ys, h))
    \/ exists ys lanes', step lanes ys lanes' /\ size lanes' < size lanes
       /\ emit own_time continue lanes i src time e = (let (out, h) := continue lanes' in (ys ++ out, h))).
  { intros i l src time o e Hp Hn Hl Hc Hf Hin Hs Ho. unfold emit. destruct (s_items src) as [|e' items] eqn:Ei.
    - destruct (s_fails src) eqn:Ef.
      + left. exists [e], Raised_in_source. split; [|reflexivity]. apply stop_bad with i l; try easy.
        * rewrite Hc. now exists [].
        * intros (S1 & _). congruence.
      + right. exists [e], (replace i (mkLane src None) lanes). split; [|split].
        * eapply step_last; eauto.
        * eapply size_replace; eauto.
        * reflexivity.
    - destruct (exchange_time own_time e' time) as [time'|] eqn:Et.
      + right. exists [e], (replace i (mkLane (mkSource items (s_fails src)) (Some (time', Some e'))) lanes). split; [|split].
        * rewrite Hf. eapply step_next; eauto.
        * eapply size_replace; eauto. unfold lane_size in *. cbn [source_of s_items position] in *. rewrite Ei in Hs. cbn [List.length] in *. lia.
        * reflexivity.
      + left. exists [e], Raised_OverflowError. split; [|reflexivity]. apply stop_bad with i l; try easy.
        * rewrite Hc. now exists (e' :: items).
        * intros (_ & S2 & _). unfold exchange_time in Et. destruct (own_time e') eqn:Ee; try discriminate.
          apply (S2 e'); [apply Hin; now left|assumption]. }
  unfold body. destruct (pick 0 None lanes) as [i|] eqn:Hp.
  - destruct (pick0 Hp) as (l & t & o & Hn & Hl & _). rewrite Hn. destruct l as [src p]. cbn in Hl. subst p.
    destruct o as [e|].
    + eapply Em; eauto; cbn; try reflexivity; try tauto. unfold lane_size. cbn. lia.
    + destruct (s_items src) as [|e items] eqn:Ei.
      * left. exists [], (if s_fails src then Raised_in_source else Raised_AttributeError). split; [|reflexivity].
        eapply stop_bad; [exact Hn| | | | | |].
        -- exists (s_items src). reflexivity.
        -- cbn. lia.
        -- destruct (s_fails src); discriminate.
        -- destruct (s_fails src); discriminate.
        -- intro H. exists t. cbn. destruct (s_fails src); [discriminate|auto].
        -- intros (_ & _ & S3). apply (S3 t); [reflexivity|assumption].
      * destruct (exchange_time own_time e t) as [t'|] eqn:Et.
        -- assert (St : (t = None \/ exists a b, t = Some a /\ t' = Some b /\ (a < b)%Z) ->
                       exists ys lanes', step lanes ys lanes' /\ size lanes' < size lanes
                       /\ continue (replace i (mkLane (mkSource items (s_fails src)) (Some (t', Some e))) lanes)
                          = (let (out, h) := continue lanes' in (ys ++ out, h))).
           { intro Hlt. exists [], (replace i (mkLane (mkSource items (s_fails src)) (Some (t', Some e))) lanes).
             split; [eapply step_start; eauto|]. split.
             - eapply size_replace; eauto. unfold lane_size. cbn. rewrite Ei. cbn. lia.
             - now destruct (continue _). }
           destruct t as [a|]; [|right; apply St; now left].
           destruct t' as [b|].
           ++ destruct (Z.ltb_spec a b) as [Hlt|Hge]; [right; apply St; right; eauto|].
              eapply Em with (o := None); eauto.
              ** cbn. rewrite Ei. intros x Hx. now right.
              ** unfold lane_size. cbn. rewrite Ei. cbn. lia.
              ** right. split; [reflexivity|]. exists a. split; [reflexivity|]. intros c Hc. rewrite Et in Hc. inversion Hc; subst. assumption.
           ++ unfold exchange_time in Et. destruct (own_time e); discriminate.
        -- left. exists [], Raised_OverflowError. split; [|reflexivity]. eapply stop_bad; [exact Hn| | | | | |]; try discriminate.
           ++ exists (s_items src). reflexivity.
           ++ cbn. lia.
           ++ intros (_ & S2 & _). unfold exchange_time in Et. destruct (own_time e) eqn:Ee; try discriminate.
              apply (S2 e); [cbn; rewrite Ei; now left|assumption].
  - left. exists [], Finished. split; [|reflexivity]. apply stop_done. apply pick_none in Hp. tauto.
Qed.

(** Runs. *)
Inductive runs : list lane -> list E -> ending -> Prop :=
| runs_stop lanes ys h : stop lanes ys h -> runs lanes ys h
| runs_step lanes ys lanes' out h : step lanes ys lanes' -> runs lanes' out h -> runs lanes (ys ++ out) h.

Lemma loop_runs fuel : forall lanes, size lanes < fuel ->
  runs lanes (fst (loop fuel lanes)) (snd (loop fuel lanes)).
Proof.
  induction fuel as [|fuel IH]; intros lanes H; [lia|]. cbn [Inputs.loop].
  destruct (body_cases (loop fuel) lanes) as [(ys & h & S & ->)|(ys & lanes' & S & L & ->)]; [now constructor|].
  specialize (IH lanes' ltac:(lia)). destruct (loop fuel lanes') as [out h]. cbn in *. econstructor; eassumption.
Qed.

(** ** Interleaving *)

Lemma stop_prefix lanes ys h : stop lanes ys h ->
  exists ls, Forall2 prefix_of ls (map contents lanes) /\ interleaving ls ys.
Proof.
  intros [D|i l ys' h' Hn [r Hr] L _ _ _ _].
  - exists (map (fun _ => []) lanes). split.
    + clear D. induction lanes; cbn; constructor; [eexists; reflexivity|assumption].
    + constructor. apply Forall_forall. intros x Hx. apply in_map_iff in Hx. now destruct Hx as [? [<- _]].
  - exists (replace i ys' (map (fun _ => []) lanes)). split.
    + revert i Hn. induction lanes as [|x lanes IH]; intros [|i] Hn; try discriminate; cbn in *.
      * inversion Hn; subst. constructor; [now exists r|]. clear. induction lanes; cbn; constructor; [eexists; reflexivity|assumption].
      * constructor; [eexists; reflexivity|]. now apply IH.
    + assert (Li : i < List.length (map (fun _ : lane => @nil E) lanes)) by (rewrite map_length; eapply nth_lt; eassumption).
      destruct ys' as [|e [|e' ys']]; cbn in L; try lia.
      * constructor. apply replace_forall; [|reflexivity]. apply Forall_forall. intros x Hx. apply in_map_iff in Hx. now destruct Hx as [? [<- _]].
      * apply interleaving_cons with i (@nil E); [now apply replace_nth|].
        rewrite replace_replace. constructor. apply replace_forall; [|reflexivity]. apply Forall_forall. intros x Hx. apply in_map_iff in Hx. now destruct Hx as [? [<- _]].
Qed.

Lemma step_contents lanes ys lanes' : step lanes ys lanes' ->
  exists i l', i < List.length lanes /\ map contents lanes' = replace i l' (map contents lanes)
    /\ nth_error (map contents lanes) i = Some (ys ++ l') /\ List.length ys <= 1.
Proof.
  intros [i src time e items time' _ Hn Hi _ _|i l src time o e _ Hn Hl Hc _ Hi _ _|i l time o e e' items time' _ Hn Hl Hc _ _].
  - exists i, (e :: items). split; [eapply nth_lt; eassumption|]. rewrite replace_map. split; [reflexivity|].
    rewrite nth_error_map, Hn. cbn. rewrite Hi. auto.
  - exists i, []. split; [eapply nth_lt; eassumption|]. rewrite replace_map. split; [reflexivity|].
    rewrite nth_error_map, Hn. cbn. rewrite Hc. auto.
  - exists i, (e' :: items). split; [eapply nth_lt; eassumption|]. rewrite replace_map. split; [reflexivity|].
    rewrite nth_error_map, Hn. cbn. rewrite Hc. auto.
Qed.

Lemma interleaving_put i (ys l' : list E) ls out : nth_error ls i = Some l' -> List.length ys <= 1 ->
  interleaving ls out -> interleaving (replace i (ys ++ l') ls) (ys ++ out).
Proof.
  intros Hn L H. destruct ys as [|e [|? ?]]; cbn in L; try lia.
  - cbn. now rewrite replace_same.
  - cbn. apply interleaving_cons with i l'; [apply replace_nth; eapply nth_lt; eassumption|]. now rewrite replace_replace, replace_same.
Qed.

Lemma runs_prefix lanes out h : runs lanes out h ->
  exists ls, Forall2 prefix_of ls (map contents lanes) /\ interleaving ls out.
Proof.
  induction 1 as [lanes ys h S|lanes ys lanes' out h S _ IH]; [eapply stop_prefix; eassumption|].
  destruct IH as (ls & P & I). destruct (step_contents S) as (i & l' & Li & E1 & E2 & L).
  rewrite E1 in P.
  assert (Hl : exists p, nth_error ls i = Some p /\ prefix_of p l').
  { clear - P Li. rewrite <- (map_length contents) in Li. revert i Li ls P. generalize (map contents lanes). intro cs.
    induction cs as [|c cs IH]; intros [|i] Li ls P; cbn in *; try lia.
    - inversion P; subst. eexists. split; [reflexivity|assumption].
    - inversion P; subst. cbn. apply IH; [lia|assumption]. }
  destruct Hl as (p & Hp & [r ->]).
  exists (replace i (ys ++ p) ls). split; [|now apply interleaving_put].
  rewrite <- (replace_same E2). rewrite <- (replace_replace i (ys ++ p ++ r) (p ++ r) (map contents lanes)).
  apply forall2_replace; [assumption|]. exists r. now rewrite app_assoc.
Qed.

Lemma runs_full lanes out : runs lanes out Finished -> interleaving (map contents lanes) out.
Proof.
  intro H. remember Finished as h eqn:Eh. induction H as [lanes ys h S|lanes ys lanes' out h S R IH]; subst.
  - inversion S as [D|i l ys' h' _ _ _ X]; subst; [|congruence]. constructor. apply Forall_forall.
    intros x Hx. apply in_map_iff in Hx. destruct Hx as [l [<- Hl]]. rewrite Forall_forall in D. unfold contents. now rewrite (D l Hl).
  - specialize (IH eq_refl). destruct (step_contents S) as (i & l' & Li & E1 & E2 & L). rewrite E1 in IH.
    rewrite <- (replace_same E2). rewrite <- (replace_replace i (ys ++ l') l' (map contents lanes)).
    apply interleaving_put; try assumption. apply replace_nth. now rewrite map_length.
Qed.

(** ** No exceptions *)

Lemma step_safe lanes ys lanes' : step lanes ys lanes' -> Forall lane_safe lanes -> Forall lane_safe lanes'.
Proof.
  intros S F. destruct S as [i src time e items time' _ Hn Hi Ht _|i l src time o e _ Hn Hl Hc Hf Hi _ _|i l time o e e' items time' _ Hn Hl Hc Ht _];
    apply replace_forall; try assumption; rewrite Forall_forall in F; pose proof (F _ (nth_error_In _ _ Hn)) as (S1 & S2 & S3).
  - split; [assumption|]. split; [|discriminate]. cbn in *. intros x Hx. apply S2. rewrite Hi. now right.
  - split; [assumption|]. split; [|discriminate]. cbn. rewrite Hi. easy.
  - split; [assumption|]. split; [|discriminate]. cbn. intros x Hx. apply S2.
    unfold contents in Hc. rewrite Hl in Hc. destruct o as [?|]; [injection Hc as _ Hc|]; rewrite Hc; cbn; tauto.
Qed.
Lemma runs_safe lanes out h : runs lanes out h -> Forall lane_safe lanes -> h = Finished.
Proof.
  induction 1 as [lanes ys h S|lanes ys lanes' out h S _ IH]; intro F.
  - destruct S as [|i l ys h Hn _ _ _ _ _ X]; [reflexivity|]. rewrite Forall_forall in F. destruct X. apply F. eapply nth_error_In. eassumption.
  - apply IH. eapply step_safe; eassumption.
Qed.
(** The exception for an empty sequence needs an empty sequence. *)
Lemma runs_attribute lanes out h : runs lanes out h ->
  Forall (fun l => forall t, position l = Some (t, None) -> s_items (source_of l) = [] -> s_fails (source_of l) = true) lanes ->
  h <> Raised_AttributeError /\ h <> OutOfFuel.
Proof.
  induction 1 as [lanes ys h S|lanes ys lanes' out h S _ IH]; intro F.
  - destruct S as [|i l ys h Hn _ _ _ X Y _]; [split; discriminate|]. split; [|assumption]. intro E0. destruct (Y E0) as (t & P & I1 & I2).
    rewrite Forall_forall in F. pose proof (F l (nth_error_In _ _ Hn) t P I1). congruence.
  - apply IH. destruct S; apply replace_forall; try assumption; cbn; discriminate.
Qed.

(** ** Order *)

Variable time : E -> Z.
(** A lane whose times are known, in order, and not before its position. *)
Definition lane_timed (l : lane) : Prop :=
  (forall e, In e (contents l) -> own_time e = Known (time e))
  /\ StronglySorted Z.le (map time (contents l))
  /\ match position l with
     | Some (Some t, None) => Forall (fun e => (t <= time e)%Z) (contents l)
     | Some (t, Some e) => t = Some (time e)
     | _ => True
     end.

Lemma step_timed lanes ys lanes' : step lanes ys lanes' -> Forall lane_timed lanes ->
  Forall lane_timed lanes'
  /\ forall e, ys = [e] -> forall l x, In l lanes -> In x (contents l) -> (time e <= time x)%Z.
Proof.
  intros S F.
  (* when an exchange is yielded, its time is the least position *)
  assert (Least : forall i l tm o e, pick 0 None lanes = Some i -> nth_error lanes i = Some l -> position l = Some (tm, o) ->
     hd_error (contents l) = Some e ->
     (o = Some e \/ o = None /\ exists t, tm = Some t /\ forall t', exchange_time own_time e tm = Some (Some t') -> (t' <= t)%Z) ->
     tm = Some (time e) /\ forall l' x, In l' lanes -> In x (contents l') -> (time e <= time x)%Z).
  { intros i l tm o e Hp Hn Hl Hh Ho. rewrite Forall_forall in F.
    assert (He : In e (contents l)) by (destruct (contents l); [discriminate|inversion Hh; subst; now left]).
    destruct (F l (nth_error_In _ _ Hn)) as (F1 & F2 & F3).
    assert (Et : tm = Some (time e)).
    { rewrite Hl in F3. destruct Ho as [->|[-> (t & -> & Ht)]]; [destruct tm; assumption|].
      rewrite Forall_forall in F3. specialize (F3 e He). f_equal. apply Z.le_antisymm; [assumption|].
      apply Ht. unfold exchange_time. now rewrite (F1 e He). }
    split; [assumption|]. subst tm. intros l' x Hl' Hx. destruct (pick0 Hp) as (l0 & t0 & o0 & Hn0 & Hp0 & C).
    rewrite Hn in Hn0. inversion Hn0; subst l0. rewrite Hl in Hp0. inversion Hp0; subst.
    destruct C as [C|(u & C & D)]; [discriminate|]. inversion C; subst u.
    destruct (position l') as [[u' o']|] eqn:Pl'.
    - destruct (D l' u' o' Hl' Pl') as (v & -> & Hv). destruct (F l' Hl') as (_ & G2 & G3). rewrite Pl' in G3.
      destruct o' as [e'|].
      + inversion G3; subst. etransitivity; [exact Hv|]. unfold contents in *. rewrite Pl' in *. destruct Hx as [<-|Hx]; [lia|].
        cbn in G2. inversion G2 as [|? ? _ G4]; subst. rewrite Forall_forall in G4. apply G4. now apply in_map.
      + rewrite Forall_forall in G3. etransitivity; [exact Hv|]. auto.
    - unfold contents in Hx. rewrite Pl' in Hx. easy. }
  destruct S as [i src tm e items time' Hp Hn Hi Ht Hlt|i l src tm o e Hp Hn Hl Hc Hf Hi _ Ho|i l tm o e e' items time' Hp Hn Hl Hc Ht Ho].
  - split; [|discriminate]. apply replace_forall; [assumption|]. rewrite Forall_forall in F.
    destruct (F _ (nth_error_In _ _ Hn)) as (F1 & F2 & F3). cbn in *. rewrite Hi in *. split; [assumption|]. split; [assumption|].
    cbn. unfold exchange_time in Ht. rewrite (F1 e) in Ht by now left. now inversion Ht.
  - destruct (Least i l tm o e Hp Hn Hl) as [_ Le]; [now rewrite Hc|assumption|].
    split; [|intros x Hx; inversion Hx; subst; assumption]. apply replace_forall; [assumption|]. split; [|split]; cbn; [easy|constructor|exact I].
  - destruct (Least i l tm o e Hp Hn Hl) as [_ Le]; [now rewrite Hc|assumption|].
    split; [|intros x Hx; inversion Hx; subst; assumption]. apply replace_forall; [assumption|]. rewrite Forall_forall in F.
    destruct (F _ (nth_error_In _ _ Hn)) as (F1 & F2 & F3). rewrite Hc in F1, F2. split; [|split]; cbn.
    + intros x Hx. apply F1. now right.
    + now inversion F2.
    + unfold exchange_time in Ht. rewrite (F1 e') in Ht by (right; now left). now inversion Ht.
Qed.

Lemma interleaving_in (ls : list (list E)) out : interleaving ls out -> forall x, In x out -> exists l, In l ls /\ In x l.
Proof.
  induction 1 as [ls D|ls i e l out Hn _ IH]; intros x Hx; [easy|].
  destruct Hx as [<-|Hx]; [exists (e :: l); split; [eapply nth_error_In; eassumption|now left]|].
  destruct (IH x Hx) as (l' & Hl' & Hx'). apply replace_in in Hl'. destruct Hl' as [->|Hl']; [|eauto].
  exists (e :: l). split; [eapply nth_error_In; eassumption|now right].
Qed.

Lemma runs_in lanes out h : runs lanes out h -> forall x, In x out -> exists l, In l lanes /\ In x (contents l).
Proof.
  intros R x Hx. destruct (runs_prefix R) as (ls & P & I). destruct (interleaving_in I Hx) as (l & Hl & Hxl).
  clear - P Hl Hxl. remember (map contents lanes) as cs eqn:Ec. revert lanes Ec. induction P as [|p c ps cs [r Hr] P IH]; intros lanes Ec; [easy|].
  destruct lanes as [|l0 lanes]; [discriminate|]. cbn in Ec. inversion Ec; subst. destruct Hl as [->|Hl].
  - exists l0. split; [now left|]. rewrite <- H0. apply in_or_app. now left.
  - destruct (IH Hl lanes eq_refl) as (l1 & H1 & H2). exists l1. split; [now right|assumption].
Qed.

Lemma runs_sorted lanes out h : runs lanes out h -> Forall lane_timed lanes -> StronglySorted Z.le (map time out).
Proof.
  induction 1 as [lanes ys h S|lanes ys lanes' out h S R IH]; intro F.
  - destruct S as [|i l ys h _ _ L _ _ _ _]; [constructor|]. destruct ys as [|e [|? ?]]; cbn in *; try lia; repeat constructor.
  - destruct (step_timed S F) as [F' Le]. specialize (IH F'). destruct (step_contents S) as (i & l' & _ & E1 & E2 & L).
    destruct ys as [|e [|? ?]]; cbn in L; try lia; [exact IH|]. cbn. constructor; [assumption|].
    apply Forall_forall. intros t Ht. apply in_map_iff in Ht. destruct Ht as [x [<- Hx]].
    destruct (runs_in R Hx) as (l1 & H1 & H2).
    assert (Hc : In (contents l1) (map contents lanes')) by now apply in_map. rewrite E1 in Hc. apply replace_in in Hc.
    destruct Hc as [Hc|Hc].
    + assert (In ([e] ++ l') (map contents lanes)) as Hi by (eapply nth_error_In; eassumption). apply in_map_iff in Hi.
      destruct Hi as (l2 & E3 & H3). apply (Le e eq_refl l2); [assumption|]. rewrite E3. right. now rewrite <- Hc.
    + apply in_map_iff in Hc. destruct Hc as (l2 & E3 & H3). apply (Le e eq_refl l2); [assumption|]. now rewrite E3.
Qed.
End Proofs.
