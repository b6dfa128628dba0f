(** C06, C07: memoization and annotations. *)
From Coq Require Import ZifyBool ZifyNat ZifyN.
From Verif Require Import Base Earley EarleySpec EarleyChart EarleySearch EarleyMain Parse P_Earley.
Open Scope nat_scope.
Unset Strict Implicit.

Section Memo.
Context {Sym Cls V E Ctx : Type}.
Variable sym_dec : forall a b : Sym, {a = b} + {a <> b}.
Variable cls_dec : forall a b : Cls, {a = b} + {a <> b}.
Variable inner : str -> Sym -> list Cls -> @inner_result V Ctx + E.
Variable unavailable : str -> V.
Variable error_ctx : E -> Ctx.
Variable unicode_ctx : str -> Ctx.
Variable merge : Ctx -> Ctx -> Ctx.

Let memo := @memo Sym Cls V Ctx.
Let call := @call Sym Cls Ctx.
Let parse : memo -> call -> _ := parse sym_dec cls_dec inner unavailable error_ctx unicode_ctx merge.
Let parse_all : memo -> list call -> _ := parse_all sym_dec cls_dec inner unavailable error_ctx unicode_ctx merge.
Let kdec := key_dec sym_dec cls_dec.

(** The key that a call looks up, if its parse succeeds. *)
Definition succeeds (c : call) : list (@key Sym Cls) :=
  match (if c_is_bytes c then Some (c_data c) else encode_latin1 (c_data c)) with
  | Some data =>
      match inner data (c_symbol c) (c_classes c) with
      | inl _ => [(data, c_symbol c, c_classes c)]
      | inr _ => []
      end
  | None => []
  end.

(** The table holds true results and no key twice. *)
Definition memo_ok (m : memo) : Prop :=
  NoDup (map fst m) /\
  Forall (fun e => let '(d, x, cs, v) := e in inner d x cs = inl v) m.

Lemma memo_get_in (m : memo) k v : memo_get sym_dec cls_dec m k = Some v -> In (k, v) m.
Proof.
  induction m as [|[k' v'] m IH]; simpl; [discriminate|].
  destruct (key_dec sym_dec cls_dec k k') as [->|]; intro H; [left; congruence|right; auto].
Qed.

Lemma memo_get_none (m : memo) k : memo_get sym_dec cls_dec m k = None -> ~ In k (map fst m).
Proof.
  induction m as [|[k' v'] m IH]; simpl; [auto|].
  destruct (key_dec sym_dec cls_dec k k') as [->|NE]; intro H; [discriminate|].
  intros [X|X]; [congruence|now apply IH].
Qed.

Definition without (k : @key Sym Cls) l := filter (fun k' => if kdec k k' then false else true) l.

Lemma memo_del_keys (m : memo) k : map fst (memo_del sym_dec cls_dec m k) = without k (map fst m).
Proof.
  unfold memo_del, without, kdec. induction m as [|[k' v'] m IH]; [reflexivity|]. cbn [filter map fst].
  destruct (key_dec sym_dec cls_dec k k'); cbn [map fst]; [exact IH|]. now rewrite IH.
Qed.

Lemma NoDup_snoc {A} (l : list A) x : NoDup l -> ~ In x l -> NoDup (l ++ [x]).
Proof.
  intros H N. rewrite <- (rev_involutive (l ++ [x])), rev_app_distr. apply NoDup_rev. simpl.
  constructor; [now rewrite <- in_rev|now apply NoDup_rev].
Qed.

Lemma NoDup_skipn {A} n (l : list A) : NoDup l -> NoDup (skipn n l).
Proof.
  revert l; induction n as [|n IH]; intros [|x l] H; simpl; auto. inversion H; subst. auto.
Qed.

Lemma Forall_skipn {A} (P : A -> Prop) n l : Forall P l -> Forall P (skipn n l).
Proof.
  revert l; induction n as [|n IH]; intros [|x l] H; simpl; auto. inversion H; subst. auto.
Qed.

(** One call: the outcome is that of a fresh table, and the invariant holds. *)
Lemma parse_step (m : memo) c : memo_ok m ->
  memo_ok (fst (parse m c)) /\ snd (parse m c) = snd (parse [] c).
Proof.
  intros [ND OK]. unfold parse, Parse.parse.
  destruct (if c_is_bytes c then Some (c_data c) else encode_latin1 (c_data c)) as [data|]; [|now repeat split].
  set (k := (data, c_symbol c, c_classes c)). cbn [memo_get].
  destruct (memo_get sym_dec cls_dec m k) as [pr|] eqn:Eg.
  - pose proof (memo_get_in Eg) as I. rewrite Forall_forall in OK. pose proof (OK _ I) as Hk. cbn in Hk.
    rewrite Hk. cbn [fst snd]. split; [|reflexivity]. unfold memo_put. split.
    + rewrite map_app, memo_del_keys. cbn [map fst]. apply NoDup_snoc.
      * now apply NoDup_filter.
      * unfold without. rewrite filter_In. destruct (kdec k k); intuition congruence.
    + apply Forall_app. split.
      * apply Forall_forall. intros e Ie. apply filter_In in Ie. now apply OK.
      * constructor; [exact Hk|constructor].
  - apply memo_get_none in Eg.
    destruct (inner data (c_symbol c) (c_classes c)) as [pr|e] eqn:Ei.
    + split; [|reflexivity]. cbn [fst]. unfold memo_evict, memo_put. split.
      * rewrite <- skipn_map. apply NoDup_skipn. rewrite map_app. now apply NoDup_snoc.
      * apply Forall_skipn. apply Forall_app. split; auto.
    + destruct (c_fail_notice c); (split; [split; assumption|reflexivity]).
Qed.

Lemma parse_all_ok cs : forall m, memo_ok m ->
  memo_ok (fst (parse_all m cs)) /\ snd (parse_all m cs) = map (fun c => snd (parse [] c)) cs.
Proof.
  induction cs as [|c cs IH]; intros m OK; [now split|].
  unfold parse_all. cbn [Parse.parse_all]. fold parse parse_all.
  destruct (parse_step c OK) as [OK1 E1]. destruct (parse m c) as [m1 o] eqn:E0. cbn [fst snd] in *.
  destruct (IH m1 OK1) as [OK2 E2]. destruct (parse_all m1 cs) as [m2 os]. cbn [fst snd] in *.
  split; auto. cbn [map]. congruence.
Qed.

(** The table as a queue: the last [memo_limit] of the successful keys in
    order of last use. *)
Definition last_n {A} n (l : list A) := skipn (List.length l - n) l.

Lemma without_app k l1 l2 : without k (l1 ++ l2) = without k l1 ++ without k l2.
Proof. apply filter_app. Qed.

Lemma nodup_snoc l k : nodup kdec (l ++ [k]) = without k (nodup kdec l) ++ [k].
Proof.
  induction l as [|x l IH]; [reflexivity|]. cbn [app nodup].
  destruct (in_dec kdec x l) as [I|NI].
  - destruct (in_dec kdec x (l ++ [k])) as [_|N]; [exact IH|]. elim N. apply in_or_app. now left.
  - unfold without at 1. cbn [filter]. fold (without k (nodup kdec l)).
    destruct (kdec k x) as [->|NE].
    + destruct (in_dec kdec x (l ++ [x])) as [_|N]; [exact IH|]. elim N. apply in_or_app. right. now left.
    + destruct (in_dec kdec x (l ++ [k])) as [I|N].
      * apply in_app_or in I. destruct I as [I|[I|[]]]; [contradiction|congruence].
      * cbn [app]. now rewrite IH.
Qed.

Lemma without_none k l : ~ In k l -> without k l = l.
Proof.
  intro N. unfold without. induction l as [|x l IH]; [reflexivity|]. cbn [filter].
  destruct (kdec k x) as [->|]; [elim N; now left|]. rewrite IH; [reflexivity|].
  intro I. apply N. now right.
Qed.

Lemma without_one k l1 l2 : NoDup (l1 ++ k :: l2) -> without k (l1 ++ k :: l2) = l1 ++ l2.
Proof.
  intro H. pose proof (NoDup_remove_2 _ _ _ H) as N. pose proof (NoDup_remove_1 _ _ _ H) as N1.
  assert (X : without k (k :: l2) = without k l2).
  { unfold without. cbn [filter]. destruct (kdec k k); [reflexivity|congruence]. }
  rewrite without_app, X.
  rewrite !without_none; auto; intro I; apply N; apply in_or_app; auto.
Qed.

Lemma last_n_snoc {A} n (l : list A) x : last_n (S n) (l ++ [x]) = last_n n l ++ [x].
Proof.
  unfold last_n. rewrite app_length. simpl List.length.
  replace (List.length l + 1 - S n) with (List.length l - n) by lia.
  rewrite skipn_app. replace (List.length l - n - List.length l) with 0 by lia. reflexivity.
Qed.

Lemma last_n_split {A} n (l : list A) : exists pre, l = pre ++ last_n n l /\ List.length (last_n n l) = Nat.min n (List.length l).
Proof.
  exists (firstn (List.length l - n) l). unfold last_n. split; [symmetry; apply firstn_skipn|].
  rewrite skipn_length. lia.
Qed.

Lemma last_n_app {A} n (pre l : list A) : n <= List.length l -> last_n n (pre ++ l) = last_n n l.
Proof.
  intro L. unfold last_n. rewrite app_length, skipn_app.
  rewrite skipn_all2 by lia. cbn [app]. f_equal. lia.
Qed.

Lemma last_n_all {A} n (l : list A) : List.length l <= n -> last_n n l = l.
Proof. intro L. unfold last_n. replace (List.length l - n) with 0 by lia. reflexivity. Qed.

Lemma last_n_map {A B} (f : A -> B) n l : map f (last_n n l) = last_n n (map f l).
Proof. unfold last_n. now rewrite <- skipn_map, map_length. Qed.

Lemma evict_last (m : memo) : memo_evict m = last_n memo_limit m.
Proof. reflexivity. Qed.

(** The history of successful keys, as a queue. *)
Definition queue (hist : list (@key Sym Cls)) := last_n memo_limit (nodup kdec hist).

Lemma lru_hit hist k : In k (queue hist) -> without k (queue hist) ++ [k] = queue (hist ++ [k]).
Proof.
  intro I. unfold queue in *. rewrite nodup_snoc.
  destruct (last_n_split memo_limit (nodup kdec hist)) as [pre [Ep L]].
  set (q := last_n memo_limit (nodup kdec hist)) in *.
  assert (ND : NoDup (pre ++ q)) by (rewrite <- Ep; apply NoDup_nodup).
  apply in_split in I. destruct I as [q1 [q2 Eq]].
  assert (NDq : NoDup q).
  { clear - ND. induction pre as [|x pre IH]; [exact ND|]. inversion ND; subst; auto. }
  assert (Np : ~ In k pre).
  { intro Ip. rewrite Eq in ND. rewrite app_assoc in ND. apply NoDup_remove_2 in ND. apply ND.
    apply in_or_app. left. apply in_or_app. now left. }
  rewrite Ep, without_app, (without_none Np).
  assert (W : without k q = q1 ++ q2) by (rewrite Eq in *; now apply without_one).
  rewrite W.
  assert (Lq : List.length q = S (List.length (q1 ++ q2))) by (rewrite Eq, !app_length; simpl; lia).
  change memo_limit with (S (Nat.pred memo_limit)). rewrite last_n_snoc. f_equal.
  destruct (Nat.le_gt_cases memo_limit (List.length (nodup kdec hist))) as [G|G].
  - rewrite last_n_app; [rewrite last_n_all; auto|]; lia.
  - assert (Lp : List.length (nodup kdec hist) = List.length pre + List.length q) by (rewrite Ep at 1; apply app_length).
    destruct pre; [|simpl in Lp; lia]. cbn [app]. rewrite last_n_all; auto. lia.
Qed.

Lemma lru_miss hist k : ~ In k (queue hist) -> last_n memo_limit (queue hist ++ [k]) = queue (hist ++ [k]).
Proof.
  intro NI. unfold queue in *. rewrite nodup_snoc.
  destruct (last_n_split memo_limit (nodup kdec hist)) as [pre [Ep L]].
  set (q := last_n memo_limit (nodup kdec hist)) in *.
  rewrite Ep, without_app, (without_none NI).
  change memo_limit with (S (Nat.pred memo_limit)). rewrite !last_n_snoc. f_equal.
  assert (Lp : List.length (nodup kdec hist) = List.length pre + List.length q) by (rewrite Ep at 1; apply app_length).
  destruct (Nat.le_gt_cases memo_limit (List.length (nodup kdec hist))) as [G|G].
  - rewrite last_n_app; [reflexivity|]. lia.
  - destruct pre; [reflexivity|simpl in Lp; lia].
Qed.

Lemma parse_queue (m : memo) c hist : memo_ok m -> map fst m = queue hist ->
  map fst (fst (parse m c)) = queue (hist ++ succeeds c).
Proof.
  intros [ND OK] Q. unfold parse, Parse.parse, succeeds.
  destruct (if c_is_bytes c then Some (c_data c) else encode_latin1 (c_data c)) as [data|];
    [|cbn [fst]; now rewrite app_nil_r].
  set (k := (data, c_symbol c, c_classes c)).
  destruct (memo_get sym_dec cls_dec m k) as [pr|] eqn:Eg.
  - pose proof (memo_get_in Eg) as I. rewrite Forall_forall in OK. pose proof (OK _ I) as Hk. cbn in Hk.
    rewrite Hk. cbn [fst]. unfold memo_put. rewrite map_app, memo_del_keys, Q. cbn [map fst].
    apply lru_hit. rewrite <- Q. apply (in_map fst) in I. exact I.
  - apply memo_get_none in Eg.
    destruct (inner data (c_symbol c) (c_classes c)) as [pr|e] eqn:Ei.
    + cbn [fst]. rewrite evict_last, last_n_map. unfold memo_put. rewrite map_app, Q. cbn [map fst].
      apply lru_miss. now rewrite <- Q.
    + rewrite app_nil_r. destruct (c_fail_notice c); exact Q.
Qed.

Lemma parse_all_queue cs : forall (m : memo) hist, memo_ok m -> map fst m = queue hist ->
  map fst (fst (parse_all m cs)) = queue (hist ++ flat_map succeeds cs).
Proof.
  induction cs as [|c cs IH]; intros m hist OK Q; [simpl; now rewrite app_nil_r|].
  unfold parse_all. cbn [Parse.parse_all flat_map]. fold parse parse_all.
  pose proof (parse_queue c OK Q) as Q1. destruct (parse_step c OK) as [OK1 _].
  destruct (parse m c) as [m1 o]. cbn [fst] in *.
  specialize (IH m1 _ OK1 Q1). destruct (parse_all m1 cs) as [m2 os]. cbn [fst] in *.
  now rewrite app_assoc.
Qed.
End Memo.

(** C06: whatever was parsed before, each call reports and returns what it
    does in a fresh process; *)
Theorem C06_memo_invisible :
  forall (Sym Cls V E Ctx : Type) sym_dec cls_dec
         (inner : str -> Sym -> list Cls -> @inner_result V Ctx + E) unavailable error_ctx unicode_ctx merge
         (history : list (@call Sym Cls Ctx)) (c : call),
    let parse := parse sym_dec cls_dec inner unavailable error_ctx unicode_ctx merge in
    let before := fst (parse_all sym_dec cls_dec inner unavailable error_ctx unicode_ctx merge [] history) in
    snd (parse before c) = snd (parse [] c).
Proof.
  intros. apply parse_step. apply parse_all_ok. split; constructor.
Qed.
Print Assumptions C06_memo_invisible.

(** the table never has more than 500 entries, and these are the keys of the
    successful calls, each once, in order of last use, the oldest dropped. *)
Theorem C06_memo_lru :
  forall (Sym Cls V E Ctx : Type) sym_dec cls_dec
         (inner : str -> Sym -> list Cls -> @inner_result V Ctx + E) unavailable error_ctx unicode_ctx merge
         (history : list (@call Sym Cls Ctx)),
    let memo := fst (parse_all sym_dec cls_dec inner unavailable error_ctx unicode_ctx merge [] history) in
    let used := flat_map (succeeds inner) history in
    List.length memo <= 500 /\
    exists dropped, nodup (key_dec sym_dec cls_dec) used = dropped ++ map fst memo /\
                    (dropped <> [] -> List.length memo = 500).
Proof.
  intros Sym Cls V E Ctx sd cd inner un ec uc mg history memo used.
  assert (Q : map fst memo = queue sd cd used).
  { apply (@parse_all_queue Sym Cls V E Ctx sd cd inner un ec uc mg history [] []).
    - split; constructor.
    - reflexivity. }
  destruct (last_n_split memo_limit (nodup (key_dec sd cd) used)) as [pre [E1 L]].
  change (last_n memo_limit (nodup (key_dec sd cd) used)) with (queue sd cd used) in *.
  rewrite <- Q in *. rewrite map_length in L. split; [unfold memo_limit in L; lia|].
  exists pre. split; [exact E1|]. intro NE.
  assert (Lp : List.length (nodup (key_dec sd cd) used) = List.length pre + List.length memo).
  { rewrite E1 at 1. now rewrite app_length, map_length. }
  destruct pre; [congruence|]. simpl in Lp. change memo_limit with 500 in L. lia.
Qed.
Print Assumptions C06_memo_lru.

(** Three calls: the first key is used again by the third and so comes last. *)
Definition demo_inner (d : str) (x : nat) (_ : list nat) : (@inner_result nat nat) + nat :=
  if x =? 9 then inr (List.length d) else inl (List.length d + x, [(77%N, 5)], []).
Definition demo_call (d : str) (x : nat) : @call nat nat nat := Call d true x true (Some 1000%N) [] 3.
Example C06_example :
  parse_all Nat.eq_dec Nat.eq_dec demo_inner (fun _ => 0) (fun e => e) (fun _ => 0) (fun a b => a + b) []
    [demo_call (s "ab") 1; demo_call (s "c") 9; demo_call (s "x") 2; demo_call (s "ab") 1]
  = ([(s "x", 2, [], (3, [(77%N, 5)], [])); (s "ab", 1, [], (3, [(77%N, 5)], []))],
     [([(77%N, 8)], Return 3 None); ([(1000%N, 4)], Return 0 None); ([(77%N, 8)], Return 3 None);
      ([(77%N, 8)], Return 3 None)]).
Proof. vm_compute. reflexivity. Qed.

(** * Annotations *)

(** Chunks paired with the slices they stand for. *)
Definition stands_for {V} (data : str) (anns : list (nat * nat * V)) (cb : chunk V * str) : Prop :=
  match fst cb with
  | Bytes b => snd cb = b /\ b <> []
  | Obj o => exists i j, In (i, j, o) anns /\ snd cb = bslice data i j
  end.

Definition reproduces {V} (data : str) (anns : list (nat * nat * V)) (chunks : list (chunk V)) : Prop :=
  exists slices, List.length slices = List.length chunks
    /\ Forall (stands_for data anns) (combine chunks slices)
    /\ List.concat slices = data.

Lemma bslice_skipn data i j : i <= j -> bslice data i j ++ skipn j data = skipn i data.
Proof.
  intro L. unfold bslice. rewrite <- (firstn_skipn (j - i) (skipn i data)) at 2. f_equal.
  replace j with (i + (j - i)) at 1 by lia. generalize (j - i). clear. intro n. revert i. induction data as [|c data IH]; intro i.
  - now rewrite !skipn_nil.
  - destruct i; [reflexivity|]. cbn [skipn plus]. apply IH.
Qed.

Lemma splice_spec {V} (data : str) (all : list (nat * nat * V)) : forall anns i,
  incl anns all ->
  Forall (fun a => fst (fst a) <= snd (fst a)) anns ->
  exists slices,
    let chunks := filter (fun c => match c with Bytes [] => false | _ => true end) (splice_loop data i anns) in
    List.length slices = List.length chunks
    /\ Forall (stands_for data all) (combine chunks slices) /\ List.concat slices = skipn i data.
Proof.
  induction anns as [|[[a b] o] anns IH]; intros i Inc F; cbn [splice_loop].
  - cbn [filter]. destruct (skipn i data) as [|c l].
    + exists []. simpl. auto.
    + exists [c :: l]. simpl. rewrite app_nil_r. repeat split; auto. constructor; [|constructor].
      split; [reflexivity|discriminate].
  - inversion F; subst. cbn [fst snd] in *.
    assert (Inc' : incl anns all) by (intros x Ix; apply Inc; now right).
    destruct (i <=? a) eqn:E; [|now apply IH].
    apply Nat.leb_le in E. destruct (IH b Inc' H2) as [sl [S1 [S2 S3]]].
    assert (Q : stands_for data all (Obj o, bslice data a b)).
    { exists a, b. split; auto. apply Inc. now left. }
    assert (Ec : bslice data i a ++ bslice data a b ++ skipn b data = skipn i data).
    { rewrite bslice_skipn by assumption. now apply bslice_skipn. }
    cbn [filter]. destruct (bslice data i a) as [|c l] eqn:Eb.
    + exists (bslice data a b :: sl). cbn [List.length combine List.concat]. repeat split.
      * now rewrite S1.
      * constructor; assumption.
      * now rewrite S3.
    + exists ((c :: l) :: bslice data a b :: sl). cbn [List.length combine List.concat]. repeat split.
      * now rewrite S1.
      * constructor; [split; [reflexivity|discriminate]|]. constructor; assumption.
      * now rewrite S3.
Qed.

(** Where the annotations of a parse come from. *)
Section Origin.
Context {G : grammar} {V C : Type}.
Variable char : N -> V.
Variable skip : V.
Variable is_skip : V -> bool.
Variable tuple listv : list V -> V.
Variable action : rl G -> option (list V -> list V * list C).
Variable annotated : V -> bool.
Let leaf := @node_leaf V C char.
Let act := @node_act G V C skip is_skip tuple action annotated.
Let rep := @node_rep V C listv.
Let meaning := meaning leaf act rep.
Let meanings := meanings leaf act rep.
Let elements := elements leaf act rep.

(** An object annotated in the meaning of a tree is the value of a subtree,
    with the span of that subtree. *)
Definition from_subtree (k : nat) (t : tree G) (a : nat * nat * V) : Prop :=
  exists v, subtree k t (fst (fst a)) v
    /\ snd (fst a) = fst (fst a) + List.length (tree_yield v)
    /\ snd a = pr_node (meaning (fst (fst a)) v) /\ annotated (snd a) = true.

Definition from_subforest (k : nat) (f : forest G) (a : nat * nat * V) : Prop :=
  exists v, subforest k f (fst (fst a)) v
    /\ snd (fst a) = fst (fst a) + List.length (tree_yield v)
    /\ snd a = pr_node (meaning (fst (fst a)) v) /\ annotated (snd a) = true.

Lemma node_act_annotations A r i j kids a : In a (pr_annotations (act A r i j kids)) ->
  In a (flat_map (@pr_annotations V C) kids) \/
  (a = (i, j, pr_node (act A r i j kids)) /\ annotated (pr_node (act A r i j kids)) = true).
Proof.
  unfold act, node_act. intro I.
  destruct (match action r with Some x => x (map (@pr_node V C) kids) | None => _ end) as [nodes' more].
  cbn [pr_annotations pr_node] in *. apply in_app_or in I. destruct I as [I|I]; [now left|].
  match type of I with context [annotated ?x] => destruct (annotated x) eqn:EN end; [|destruct I].
  destruct I as [<-|[]]. now right.
Qed.

Lemma annotations_origin :
  (forall t k a, In a (pr_annotations (meaning k t)) -> from_subtree k t a) /\
  (forall f k a, (In a (flat_map (@pr_annotations V C) (meanings k f)) -> from_subforest k f a) /\
                 (In a (flat_map (@pr_annotations V C) (elements k f)) -> from_subforest k f a)).
Proof.
  apply tree_forest_ind.
  - intros c k a I. unfold meaning in I. rewrite meaning_leaf in I. destruct I.
  - intros A r f IH k a I. unfold meaning in I. rewrite meaning_node in I.
    assert (SF : from_subforest k f a -> from_subtree k (Node A r f) a).
    { intros [v [S1 S2]]. exists v. split; auto. now constructor. }
    destruct (rep_rule A r) eqn:ER.
    + apply SF. apply IH. exact I.
    + apply node_act_annotations in I. destruct I as [I|[-> EN]]; [apply SF; apply (proj1 (IH k a)); exact I|].
      cbn [fst snd]. exists (Node A r f). cbn [fst snd]. split; [constructor|]. split; [now rewrite yield_node|].
      split; [|exact EN]. unfold meaning. now rewrite meaning_node, ER.
  - intros k a. split; intros [].
  - intros t IHt f IHf k a. split; intro I.
    + unfold meanings in I. rewrite meanings_fcons in I. cbn [flat_map] in I. apply in_app_or in I. destruct I as [I|I].
      * apply IHt in I. destruct I as [v [S1 S2]]. exists v. split; auto. now constructor.
      * apply IHf in I. destruct I as [v [S1 S2]]. exists v. split; auto. now apply subf_next.
    + unfold elements in I. rewrite elements_fcons, flat_map_app in I. apply in_app_or in I. destruct I as [I|I].
      * destruct t as [c|A r g]; [destruct I|]. destruct (rep_rule A r) eqn:ER; [|destruct I].
        assert (I' : In a (pr_annotations (meaning k (Node A r g)))).
        { unfold meaning. rewrite meaning_node, ER. exact I. }
        apply IHt in I'. destruct I' as [v [S1 S2]]. exists v. split; auto. now constructor.
      * apply IHf in I. destruct I as [v [S1 S2]]. exists v. split; auto. now apply subf_next.
Qed.
End Origin.

(** C07: the annotated string has no empty pieces, and replacing each object
    by the slice of the input with its span gives back the input; each object
    is the value of the part of the derivation with that span. *)
Theorem C07_annotated_input :
  forall (G : grammar) (V C : Type) char skip is_skip tuple listv action annotated (T : nt G) data (r : @presult V C),
  @rep_ok G ->
  returns (node_leaf char) (node_act skip is_skip tuple action annotated) (node_rep listv) data T (Accepted r) ->
  reproduces data (pr_annotations r) (splice data (pr_annotations r)) /\
  exists t, tree_of (Nt T) t /\ tree_yield t = data /\
    forall i j o, In (i, j, o) (pr_annotations r) -> exists v,
      subtree 0 t i v /\ tree_yield v = bslice data i j /\
      o = pr_node (meaning (node_leaf char) (node_act skip is_skip tuple action annotated) (node_rep listv) i v).
Proof.
  intros G V C char skip is_skip tuple listv action annotated T data r RO H.
  destruct (C02_result_is_meaning RO H) as [t [T1 [T2 ->]]].
  assert (O : forall i j o, In (i, j, o) (pr_annotations (meaning (node_leaf char) (node_act skip is_skip tuple action annotated) (node_rep listv) 0 t)) ->
    exists v, subtree 0 t i v /\ j = i + List.length (tree_yield v)
      /\ o = pr_node (meaning (node_leaf char) (node_act skip is_skip tuple action annotated) (node_rep listv) i v)).
  { intros i j o I. apply (proj1 (@annotations_origin G V C char skip is_skip tuple listv action annotated)) in I.
    destruct I as [v [S1 [S2 [S3 _]]]]. cbn [fst snd] in *. eauto. }
  split.
  - unfold splice.
    match goal with |- context [splice_loop data 0 ?anns] =>
      destruct (@splice_spec V data anns anns 0 (fun x Ix => Ix)) as [sl HS] end.
    + apply Forall_forall. intros [[i j] o] I. apply O in I. destruct I as [v [_ [-> _]]]. cbn [fst snd]. lia.
    + exists sl. exact HS.
  - exists t. split; [exact T1|]. split; [exact T2|]. intros i j o I. apply O in I.
    destruct I as [v [S1 [-> S3]]]. exists v. split; [exact S1|]. split; [|exact S3].
    assert (TA : tree_at data (Nt T) t 0 (List.length data)).
    { repeat split; auto; [now rewrite T2|]. rewrite T2. now apply slice_all. }
    destruct (proj1 (sub_at data) _ _ _ _ S1 _ _ TA) as [x [_ [_ [_ E3]]]].
    symmetry. exact E3.
Qed.
Print Assumptions C07_annotated_input.

(** Objects whose spans follow one another are all shown, in order. *)
Fixpoint in_order {V} (i : nat) (anns : list (nat * nat * V)) : Prop :=
  match anns with
  | [] => True
  | (a, b, _) :: anns' => i <= a /\ a <= b /\ in_order b anns'
  end.

Theorem C07_disjoint_objects_shown :
  forall (V : Type) data (anns : list (nat * nat * V)), in_order 0 anns ->
  flat_map (fun c => match c with Obj o => [o] | Bytes _ => [] end) (splice data anns) = map snd anns.
Proof.
  intros V data anns. unfold splice. generalize 0. induction anns as [|[[a b] o] anns IH]; intros i H.
  - cbn [splice_loop filter]. destruct (skipn i data); reflexivity.
  - destruct H as [H1 [H2 H3]]. cbn [splice_loop]. apply Nat.leb_le in H1. rewrite H1. cbn [filter].
    destruct (bslice data i a); cbn [flat_map map snd app]; f_equal; now apply IH.
Qed.
Print Assumptions C07_disjoint_objects_shown.

(** Comments with nested comments annotated; values are given as strings. *)
Definition flat (l : list str) : str := List.concat l.
Definition comment_parse (data : str) :=
  @inner_parse comments (@presult str N) (node_leaf (fun c => [c]))
    (node_act [] (fun _ => false) flat (fun _ => None) (fun v => match v with c :: _ => N.eqb c 40 | [] => false end))
    (node_rep flat) 80 data (0 : nt comments).

(** The two inner comments are shown as objects; the outer one is not, since
    it starts before them. *)
Example C07_example :
  exists r, comment_parse (s "(a(b)(c))") = Done (Accepted r) /\
    splice (s "(a(b)(c))") (pr_annotations r)
    = [Bytes (s "(a"); Obj (s "(b)"); Obj (s "(c)"); Bytes (s ")")].
Proof. eexists. vm_compute. split; reflexivity. Qed.
