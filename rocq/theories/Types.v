(** Types of parsed values: an abstract interpretation of the grammar.

    For a symbol, [infer] computes a description of all values that it can
    have.  This is not part of httpolice: it is how the proofs know what the
    checks get from a header. *)
From Coq Require Import ZifyBool ZifyNat ZifyN Permutation String.
From Verif Require Import Base Earley EarleySpec Parse Grammar GrammarSem GrammarLang GrammarWF GrammarVals GrammarCalc Syntax Actions.
Open Scope nat_scope.
Open Scope list_scope.
Unset Strict Implicit.

(** ** Types *)

(** [TAny] is anything at all, also what an exception leaves behind.  A string
    has its set of characters and bounds on its length. *)
Inductive ty :=
| TAny
| TStr (bits : N) (lo : nat) (hi : option nat)
| TLit (x : str)
| TBytes
| TNone
| TSkip
| TBool
| TInt
| TFloat
| TList (ne : bool) (elts : list ty)
| TTuple (args : list (list ty))
| TObj (cls : str) (args : list (list ty))
| TUnav
| TBad.

Fixpoint ty_dec (a b : ty) {struct a} : {a = b} + {a <> b}.
Proof.
  decide equality; try apply N.eq_dec; try apply Nat.eq_dec; try apply bool_dec; try apply (list_eq_dec N.eq_dec);
    try (apply (list_eq_dec ty_dec)); try (apply (list_eq_dec (list_eq_dec ty_dec))).
  decide equality; apply Nat.eq_dec.
Defined.

Definition any (l : list Prop) : Prop := fold_right or False l.
Fixpoint all2 (ps : list (val -> Prop)) (vs : list val) : Prop :=
  match ps, vs with
  | [], [] => True
  | p :: ps', v :: vs' => p v /\ all2 ps' vs'
  | _, _ => False
  end.

Definition within (hi : option nat) (n : nat) : Prop := match hi with Some h => n <= h | None => True end.

(** Does a value have a type? *)
Fixpoint has (t : ty) (v : val) {struct t} : Prop :=
  match t with
  | TAny => True
  | TStr b lo hi => exists x, v = VStr x /\ Forall (fun c => N.testbit b c = true) x /\ lo <= List.length x /\ within hi (List.length x)
  | TLit x => v = VStr x
  | TBytes => exists x, v = VBytes x
  | TNone => v = VNone
  | TSkip => v = VSkip
  | TBool => exists b, v = VBool b
  | TInt => exists z, v = VInt z /\ (0 <= z)%Z
  | TFloat => exists x, v = VFloat x
  | TList ne ts => exists l, v = VList l /\ (ne = true -> l <> []) /\ Forall (fun w => any (map (fun t => has t w) ts)) l
  | TTuple tss => exists l, v = VTuple l /\ all2 (map (fun ts w => any (map (fun t => has t w) ts)) tss) l
  | TObj c tss => exists l, v = VObj c l /\ all2 (map (fun ts w => any (map (fun t => has t w) ts)) tss) l
  | TUnav => exists x, v = VUnavailable x
  | TBad => v = VBad
  end.
Definition hasu (ts : list ty) (v : val) : Prop := any (map (fun t => has t v) ts).

Lemma hasu_iff ts v : hasu ts v <-> exists t, In t ts /\ has t v.
Proof.
  unfold hasu. induction ts as [|t ts IH]; cbn; [split; [intros []|intros [t [[] _]]]|].
  rewrite IH. split.
  - intros [H|[t' [A B]]]; eauto.
  - intros [t' [[<-|A] B]]; eauto.
Qed.
Lemma hasu_incl ts ts' v : (forall t, In t ts -> In t ts') -> hasu ts v -> hasu ts' v.
Proof. rewrite !hasu_iff. intros H [t [A B]]. eauto. Qed.
Lemma hasu_one t v : hasu [t] v <-> has t v.
Proof. rewrite hasu_iff. split; [intros [x [[<-|[]] H]]; exact H|intro H; exists t; split; [now left|exact H]]. Qed.
Lemma all2_Forall2 tss vs : all2 (map (fun ts w => any (map (fun t => has t w) ts)) tss) vs <-> Forall2 hasu tss vs.
Proof.
  revert vs. induction tss as [|ts tss IH]; intros [|v vs]; cbn [map all2].
  - split; [constructor|auto].
  - split; [intros []|intro H; inversion H].
  - split; [intros []|intro H; inversion H].
  - rewrite IH. split; [intros [A B]; now constructor|intro H; inversion H; subst; auto].
Qed.
Lemma has_list ne ts v : has (TList ne ts) v <-> exists l, v = VList l /\ (ne = true -> l <> []) /\ Forall (hasu ts) l.
Proof. reflexivity. Qed.
Lemma has_tuple tss v : has (TTuple tss) v <-> exists l, v = VTuple l /\ Forall2 hasu tss l.
Proof. cbn [has]. split; intros [l [A B]]; exists l; (split; [exact A|]); now apply all2_Forall2. Qed.
Lemma has_obj c tss v : has (TObj c tss) v <-> exists l, v = VObj c l /\ Forall2 hasu tss l.
Proof. cbn [has]. split; intros [l [A B]]; exists l; (split; [exact A|]); now apply all2_Forall2. Qed.
Lemma singles ts vs : Forall2 has ts vs -> Forall2 hasu (map (fun t => [t]) ts) vs.
Proof. induction 1; constructor; auto. now apply hasu_one. Qed.

Lemma singles_all ts vs : Forall2 has ts vs -> Forall (hasu ts) vs.
Proof.
  intro F. assert (G : forall ts' vs', (forall t, In t ts' -> In t ts) -> Forall2 has ts' vs' -> Forall (hasu ts) vs').
  { intros ts' vs' Sub F'. induction F' as [|t v ts' vs' H F' IH]; constructor.
    - apply hasu_iff. exists t. split; [apply Sub; now left|exact H].
    - apply IH. intros x Hx. apply Sub. now right. }
  now apply G with ts.
Qed.

(** ** Unions *)

Definition hi_max (a b : option nat) : option nat := match a, b with Some x, Some y => Some (Nat.max x y) | _, _ => None end.
Definition hi_add (a b : option nat) : option nat := match a, b with Some x, Some y => Some (x + y) | _, _ => None end.
Fixpoint put_str (b : N) (lo : nat) (hi : option nat) (ts : list ty) : list ty :=
  match ts with
  | [] => [TStr b lo hi]
  | TStr b' lo' hi' :: r => TStr (N.lor b b') (Nat.min lo lo') (hi_max hi hi') :: r
  | t :: r => t :: put_str b lo hi r
  end.
Definition insert (t : ty) (ts : list ty) : list ty :=
  match t with
  | TStr b lo hi => put_str b lo hi ts
  | _ => if in_dec ty_dec t ts then ts else ts ++ [t]
  end.
Definition join (ts1 ts2 : list ty) : list ty := fold_left (fun ts t => insert t ts) ts1 ts2.

Lemma within_max_l a b n : within a n -> within (hi_max a b) n.
Proof. destruct a, b; cbn; lia. Qed.
Lemma within_max_r a b n : within b n -> within (hi_max a b) n.
Proof. destruct a, b; cbn; lia. Qed.
Lemma within_add a b n m : within a n -> within b m -> within (hi_add a b) (n + m).
Proof. destruct a, b; cbn; lia. Qed.
Lemma bits_l b b' x : Forall (fun c => N.testbit b c = true) x -> Forall (fun c => N.testbit (N.lor b b') c = true) x.
Proof. apply Forall_impl. intros c H. rewrite N.lor_spec, H. reflexivity. Qed.
Lemma bits_r b b' x : Forall (fun c => N.testbit b' c = true) x -> Forall (fun c => N.testbit (N.lor b b') c = true) x.
Proof. apply Forall_impl. intros c H. rewrite N.lor_spec, H. apply orb_true_r. Qed.

Lemma put_str_in b lo hi ts v : has (TStr b lo hi) v -> hasu (put_str b lo hi ts) v.
Proof.
  intro H. induction ts as [|t ts IH]; [now apply hasu_one|].
  destruct t; cbn [put_str]; try (right; exact IH).
  left. destruct H as [x [-> [F [L W]]]]. exists x. split; [reflexivity|]. split; [now apply bits_l|]. split; [lia|now apply within_max_l].
Qed.
Lemma put_str_keep b lo hi ts v : hasu ts v -> hasu (put_str b lo hi ts) v.
Proof.
  induction ts as [|t ts IH]; [intros []|]. intros [H|H].
  - destruct t; cbn [put_str]; try (left; exact H).
    left. destruct H as [x [-> [F [L W]]]]. exists x. split; [reflexivity|]. split; [now apply bits_r|]. split; [lia|now apply within_max_r].
  - destruct t; cbn [put_str]; right; try exact H; apply IH; exact H.
Qed.
Lemma insert_in t ts v : has t v -> hasu (insert t ts) v.
Proof.
  intro H. destruct t; cbn [insert]; try (now apply put_str_in);
    (destruct (in_dec ty_dec _ ts) as [I|_]; apply hasu_iff; eexists; (split; [|exact H]); [exact I|apply in_app_iff; right; now left]).
Qed.
Lemma insert_keep t ts v : hasu ts v -> hasu (insert t ts) v.
Proof.
  intro H. destruct t; cbn [insert]; try (now apply put_str_keep);
    (destruct (in_dec ty_dec _ ts) as [I|_]; [exact H|]; eapply hasu_incl; [|exact H]; intros; apply in_app_iff; now left).
Qed.
Lemma join_r ts1 : forall ts2 v, hasu ts2 v -> hasu (join ts1 ts2) v.
Proof. unfold join. induction ts1 as [|t ts1 IH]; intros ts2 v H; cbn; [exact H|]. apply IH. now apply insert_keep. Qed.
Lemma join_l ts1 : forall ts2 v, hasu ts1 v -> hasu (join ts1 ts2) v.
Proof.
  unfold join. induction ts1 as [|t ts1 IH]; intros ts2 v H; cbn; [destruct H|]. destruct H as [H|H].
  - apply join_r. now apply insert_in.
  - now apply IH.
Qed.
Definition joins (tss : list (list ty)) : list ty := fold_right join [] tss.
Lemma joins_in tss ts v : In ts tss -> hasu ts v -> hasu (joins tss) v.
Proof.
  induction tss as [|x tss IH]; intros I H; [destruct I|]. cbn. destruct I as [->|I]; [now apply join_l|apply join_r; now apply IH].
Qed.

(** ** Skipped nodes *)

Definition can_skip (t : ty) : bool := match t with TSkip | TAny => true | _ => false end.
Definition keeps (t : ty) : bool := match t with TSkip => false | _ => true end.
(** The ways in which nodes can be left out. *)
Fixpoint resolve (nodes : list (list ty)) : list (list (list ty)) :=
  match nodes with
  | [] => [[]]
  | ts :: rest =>
      let r := resolve rest in
      (if existsb can_skip ts then r else []) ++
      (match filter keeps ts with [] => [] | ts' => map (cons ts') r end)
  end.
Lemma resolve_ok nodes : forall vs, Forall2 hasu nodes vs -> exists alt, In alt (resolve nodes) /\ Forall2 hasu alt (nonskip vs).
Proof.
  induction nodes as [|ts nodes IH]; intros vs H; inversion H as [|? v ? vs' H1 H2]; subst.
  - exists []. split; [now left|constructor].
  - destruct (IH _ H2) as [alt [I F]]. cbn [resolve nonskip filter]. destruct (is_vskip v) eqn:E; cbn [negb].
    + exists alt. split; [|exact F]. apply in_app_iff. left. replace (existsb can_skip ts) with true; [exact I|]. symmetry. apply existsb_exists.
      apply hasu_iff in H1. destruct H1 as [t [It Ht]]. exists t. split; [exact It|]. destruct v; try discriminate E.
      destruct t; try reflexivity; cbn in Ht; try discriminate Ht; destruct Ht as [? Ht]; try discriminate Ht; destruct Ht; discriminate.
    + assert (G : hasu (filter keeps ts) v).
      { apply hasu_iff in H1. destruct H1 as [t [It Ht]]. apply hasu_iff. exists t. split; [|exact Ht]. apply filter_In. split; [exact It|].
        destruct t; try reflexivity. cbn in Ht. subst v. discriminate E. }
      exists (filter keeps ts :: alt). split; [|constructor; [exact G|exact F]]. apply in_app_iff. right.
      destruct (filter keeps ts) as [|t ts']; [destruct G|]. apply in_map. exact I.
Qed.

(** The value of nodes as one node. *)
Definition collapse_alt (alt : list (list ty)) : list ty :=
  match alt with
  | [] => [TSkip]
  | [ts] => ts
  | _ => [TTuple alt]
  end.
Definition collapse_ty (alts : list (list (list ty))) : list ty :=
  joins (map collapse_alt (flat_map resolve alts)).
Lemma collapse_ok alts alt vs : In alt alts -> Forall2 hasu alt vs -> hasu (collapse_ty alts) (collapse vs).
Proof.
  intros I F. destruct (resolve_ok F) as [alt' [I' F']]. unfold collapse_ty. apply joins_in with (ts := collapse_alt alt').
  - apply in_map, in_flat_map. eauto.
  - unfold collapse, nonskip in *. inversion F' as [|ts v rest vs' H1 H2 E1 E2]; [apply hasu_one; reflexivity|].
    inversion H2 as [|ts2 v2 rest2 vs2 H3 H4 E3 E4]; subst; cbn [collapse_alt].
    + exact H1.
    + apply hasu_one, has_tuple. exists (v :: v2 :: vs2). split; [reflexivity|]. constructor; [exact H1|]. constructor; [exact H3|exact H4].
Qed.

(** ** Functions *)

(** All ways to choose one type for each argument. *)
Fixpoint choices (nodes : list (list ty)) : list (list ty) :=
  match nodes with
  | [] => [[]]
  | ts :: rest => let r := choices rest in flat_map (fun t => map (cons t) r) ts
  end.
Lemma choices_ok nodes : forall vs, Forall2 hasu nodes vs -> exists ts, In ts (choices nodes) /\ Forall2 has ts vs.
Proof.
  induction nodes as [|ts nodes IH]; intros vs H; inversion H as [|? v ? vs' H1 H2]; subst.
  - exists []. split; [now left|constructor].
  - destruct (IH _ H2) as [cs [I F]]. apply hasu_iff in H1. destruct H1 as [t [It Ht]].
    exists (t :: cs). split; [|now constructor]. cbn. apply in_flat_map. exists t. split; [exact It|]. now apply in_map.
Qed.

(** A type of strings as characters and lengths. *)
Definition lit_bits (x : str) : N := fold_right (fun c b => N.lor (N.shiftl 1 c) b) 0%N x.
Definition as_str (t : ty) : option (N * nat * option nat) :=
  match t with
  | TStr b lo hi => Some (b, lo, hi)
  | TLit x => Some (lit_bits x, List.length x, Some (List.length x))
  | _ => None
  end.
Lemma lit_bits_ok x : Forall (fun c => N.testbit (lit_bits x) c = true) x.
Proof.
  induction x as [|c x IH]; constructor; cbn [lit_bits fold_right].
  - rewrite N.lor_spec. apply orb_true_iff. left. rewrite N.shiftl_spec_high' by lia. now rewrite N.sub_diag.
  - now apply bits_r.
Qed.
Lemma as_str_ok t b lo hi v : as_str t = Some (b, lo, hi) -> has t v -> has (TStr b lo hi) v.
Proof.
  destruct t; cbn [as_str]; try discriminate; intros E H.
  - injection E as <- <- <-. exact H.
  - injection E as <- <- <-. cbn in H. subst v. exists x. split; [reflexivity|]. split; [apply lit_bits_ok|]. cbn. lia.
Qed.
(** Strings only. *)
Fixpoint join_strs (ts : list ty) : option (N * nat * option nat) :=
  match ts with
  | [] => Some (0%N, 0, Some 0)
  | t :: ts' =>
      match as_str t, join_strs ts' with
      | Some (b, lo, hi), Some (b', lo', hi') => Some (N.lor b b', lo + lo', hi_add hi hi')
      | _, _ => None
      end
  end.
Lemma join_strs_ok ts : forall vs b lo hi, join_strs ts = Some (b, lo, hi) -> Forall2 has ts vs ->
  exists x, join_vals vs = Some x /\ has (TStr b lo hi) (VStr x).
Proof.
  induction ts as [|t ts IH]; intros vs b lo hi E F; inversion F as [|? v ? vs' H1 H2]; subst.
  - injection E as <- <- <-. exists []. split; [reflexivity|]. exists []. cbn. repeat split; auto.
  - cbn [join_strs] in E. destruct (as_str t) as [[[b1 l1] h1]|] eqn:E1; [|discriminate].
    destruct (join_strs ts) as [[[b2 l2] h2]|] eqn:E2; [|discriminate]. injection E as <- <- <-.
    destruct (IH _ _ _ _ eq_refl H2) as [x2 [J [x2' [Q [F2 [L2 W2]]]]]]. injection Q as <-.
    destruct (as_str_ok E1 H1) as [x1 [-> [F1 [L1 W1]]]]. exists (x1 ++ x2). cbn. rewrite J. split; [reflexivity|].
    exists (x1 ++ x2). split; [reflexivity|]. rewrite app_length. split; [apply Forall_app; split; [now apply bits_l|now apply bits_r]|]. split; [lia|now apply within_add].
Qed.
(** Strings that can be only one string. *)
Fixpoint join_exact (ts : list ty) : option str :=
  match ts with
  | [] => Some []
  | t :: ts' =>
      match t, join_exact ts' with
      | TLit x, Some y => Some (x ++ y)
      | TStr b 1 (Some 1), Some y => if N.eqb b (N.shiftl 1 (N.log2 b)) then Some (N.log2 b :: y) else None
      | _, _ => None
      end
  end.
Lemma join_exact_ok ts : forall vs y, join_exact ts = Some y -> Forall2 has ts vs -> join_vals vs = Some y.
Proof.
  induction ts as [|t ts IH]; intros vs y E F; inversion F as [|? v ? vs' H1 H2]; subst; [exact E|]. cbn [join_exact] in E.
  destruct (join_exact ts) as [y'|]; [|destruct t as [|b [|[|]] [[|[|]]|]| | | | | | | | | | | |]; discriminate E].
  destruct t as [|b [|[|]] [[|[|]]|]|x| | | | | | | | | | |]; try discriminate E.
  - destruct (N.eqb_spec b (N.shiftl 1 (N.log2 b))) as [B|]; [|discriminate E]. injection E as <-.
    destruct H1 as [x [-> [G [L W]]]]. cbn in W. destruct x as [|c [|? ?]]; cbn in L, W; try lia. inversion G as [|? ? T _]; subst.
    cbn. rewrite (IH _ _ eq_refl H2). cbn. f_equal. f_equal.
    rewrite B in T. rewrite N.shiftl_1_l, N.pow2_bits_eqb in T. apply N.eqb_eq in T. now symmetry.
  - injection E as <-. cbn in H1. subst v. cbn. now rewrite (IH _ _ eq_refl H2).
Qed.
(** The characters and the least length of the elements of a list. *)
Fixpoint elts_strs (ts : list ty) : option (N * nat) :=
  match ts with
  | [] => Some (0%N, 1)
  | t :: ts' =>
      match as_str t, elts_strs ts' with
      | Some (b, lo, _), Some (b', lo') => Some (N.lor b b', Nat.min lo lo')
      | _, _ => None
      end
  end.
Lemma elts_strs_ok ts b lo v : elts_strs ts = Some (b, lo) -> hasu ts v -> has (TStr b lo None) v.
Proof.
  revert b lo. induction ts as [|t ts IH]; intros b lo E H; [destruct H|]. cbn [elts_strs] in E.
  destruct (as_str t) as [[[b1 l1] h1]|] eqn:E1; [|discriminate]. destruct (elts_strs ts) as [[b2 l2]|]; [|discriminate]. injection E as <- <-.
  destruct H as [H|H].
  - destruct (as_str_ok E1 H) as [x [-> [F [L _]]]]. exists x. split; [reflexivity|]. split; [now apply bits_l|]. split; [lia|exact I].
  - destruct (IH _ _ eq_refl H) as [x [-> [F [L _]]]]. exists x. split; [reflexivity|]. split; [now apply bits_r|]. split; [lia|exact I].
Qed.
Lemma join_elts b lo l : Forall (has (TStr b lo None)) l -> exists x, join_vals l = Some x /\ Forall (fun c => N.testbit b c = true) x /\ (l <> [] -> lo <= List.length x).
Proof.
  induction 1 as [|v l [x [-> [F [L _]]]] H [y [J [G _]]]]; [exists []; repeat split; [constructor|congruence]|].
  exists (x ++ y). cbn. rewrite J. split; [reflexivity|]. split; [now apply Forall_app|]. intros _. rewrite app_length. lia.
Qed.

Definition digit_bits : N := N.lxor (N.ones 58) (N.ones 48).
Definition only_digits (b : N) : bool := N.eqb (N.ldiff b digit_bits) 0.
Lemma only_digits_ok b c : only_digits b = true -> N.testbit b c = true -> (48 <= c <= 57)%N.
Proof.
  unfold only_digits. intros E H. apply N.eqb_eq in E. assert (D : N.testbit digit_bits c = true).
  { assert (X : N.testbit (N.ldiff b digit_bits) c = false) by (rewrite E; apply N.bits_0). rewrite N.ldiff_spec, H in X. destruct (N.testbit digit_bits c); [reflexivity|discriminate X]. }
  unfold digit_bits in D. rewrite N.lxor_spec in D. destruct (N.ltb_spec c 58) as [L|L].
  - rewrite N.ones_spec_low in D by exact L. destruct (N.ltb_spec c 48) as [L'|L']; [rewrite N.ones_spec_low in D by exact L'; discriminate|lia].
  - rewrite !N.ones_spec_high in D by lia. discriminate.
Qed.
Lemma digits_val_some x : Forall (fun c => (48 <= c <= 57)%N) x -> forall acc, exists n, digits_val acc x = Some n.
Proof.
  induction 1 as [|c x H F IH]; intro acc; cbn [digits_val]; [eauto|].
  replace ((48 <=? c)%N && (c <=? 57)%N) with true by lia. apply IH.
Qed.
Lemma int_of_has x : x <> [] -> Forall (fun c => (48 <= c <= 57)%N) x -> has TInt (int_of x).
Proof.
  intros N F. unfold int_of. destruct x as [|c x]; [congruence|]. destruct (digits_val_some F 0) as [n ->]. exists (Z.of_N n). split; [reflexivity|lia].
Qed.

(** The type of a constant. *)
Definition const_ty (v : val) : ty :=
  match v with
  | VStr [] => TStr 0 0 (Some 0)
  | VStr x => TLit x
  | VNone => TNone
  | VSkip => TSkip
  | VBool _ => TBool
  | VInt z => if Z.leb 0 z then TInt else TAny
  | VList [] => TList false []
  | VObj c [VList []] => TObj c [[TList false []]]
  | _ => TAny
  end.
Lemma const_ok v : has (const_ty v) v.
Proof.
  assert (E : has (TList false []) (VList [])) by (exists []; repeat split; [discriminate|constructor]).
  destruct v as [x| | | |b|z| |l| |c l| |]; cbn [const_ty]; try exact I; try reflexivity.
  - destruct x; [|reflexivity]. exists []. cbn. repeat split; auto.
  - now exists b.
  - destruct (Z.leb_spec 0 z); [now exists z|exact I].
  - destruct l; [exact E|exact I].
  - destruct l as [|[] [|]]; try exact I; try (destruct l; exact I). destruct l; [|exact I]. apply has_obj. eexists. split; [reflexivity|]. constructor; [now apply hasu_one|constructor].
Qed.

Definition without_none (ts : list ty) : list ty := filter (fun t => match t with TNone => false | _ => true end) ts.
Lemma without_none_ok ts l : Forall (hasu ts) l -> Forall (hasu (without_none ts)) (not_none l).
Proof.
  intro F. unfold not_none. induction F as [|v l H F IH]; cbn [filter]; [constructor|]. destruct (is_none v) eqn:E; cbn [negb]; [exact IH|].
  constructor; [|exact IH]. apply hasu_iff in H. destruct H as [t [It Ht]]. apply hasu_iff. exists t. split; [|exact Ht]. apply filter_In. split; [exact It|].
  destruct t; try reflexivity. cbn in Ht. subst v. discriminate E.
Qed.

Definition date_ty : ty := TObj (s "date") [[TInt]; [TInt]; [TInt]].
Definition time_ty : ty := TObj (s "time") [[TInt]; [TInt]; [TInt]].
Definition datetime_ty : ty := TObj (s "datetime") [[TInt]; [TInt]; [TInt]; [TInt]; [TInt]; [TInt]].
Definition is_strs (ts : list ty) : bool := match elts_strs ts with Some _ => true | None => false end.
Lemma is_strs_ok ts v : is_strs ts = true -> hasu ts v -> exists x, v = VStr x.
Proof.
  unfold is_strs. destruct (elts_strs ts) as [[b lo]|] eqn:E; [|discriminate]. intros _ H. destruct (elts_strs_ok E H) as [x [-> _]]. eauto.
Qed.

Definition moment (d t : ty) : list ty :=
  match d, t with
  | TUnav, TUnav => [TUnav]
  | TUnav, _ => if ty_dec t time_ty then [TUnav] else [TAny]
  | _, TUnav => if ty_dec d date_ty then [TUnav] else [TAny]
  | _, _ => if ty_dec d date_ty then (if ty_dec t time_ty then [datetime_ty] else [TAny]) else [TAny]
  end.
(** With the day of the week, as [to_datetime] gives it. *)
Definition moment_tuple (dow d t : ty) : list ty :=
  flat_map (fun m => match m with TAny => [TAny] | _ => [TTuple [[dow]; [m]]] end) (moment d t).

Section Infer.
Variable nested : pyf -> list val -> val * list vcomplaint.
Variable nested_ty : pyf -> list ty -> list ty.
Hypothesis nested_ok : forall p ts vs, Forall2 has ts vs -> hasu (nested_ty p ts) (fst (nested p vs)).
Notation pf := (pyfun nested).

Definition py_ty (p : pyf) (ts : list ty) : list ty :=
  match p, ts with
  | PCheckMediaType, [TObj c [u]] => if is_strs u then ts else [TAny]
  | PCheckSensible _, [TStr b (S lo) (Some 1)] => [TStr b 1 (Some 1)]
  | PStripParens, [t] => match as_str t with Some (b, _, _) => [TStr b 0 None] | None => [TAny] end
  | PJustOneSpace, [t] => match as_str t with Some _ => [t] | None => [TAny] end
  | PBadWhitespace, [t] => match as_str t with Some _ => [t] | None => [TAny] end
  | PCollectElements, [TList _ u] => [TList false (without_none u)]
  | PSingleton, [t] => [TList true [t]]
  | PEmptyParams, [t] => [TObj (s "Parametrized") [[t]; [TObj (s "MultiDict") [[TList false []]]]]]
  | PToDate, [TInt; TInt; TInt] => [date_ty; TUnav]
  | PToTime, [TInt; TInt; TInt] => [time_ty; TUnav]
  | PToDatetime, [dow; d; t] => moment_tuple dow d t
  | PYear19, [t] => match as_str t with Some (b, _, _) => if only_digits b then [TInt] else [TAny] | None => [TAny] end
  | PFromAsctime, [dow; TTuple [[TInt]; [TInt]]; t; TInt] => moment_tuple dow date_ty t ++ moment_tuple dow TUnav t
  | PObsoleteDate, [t] => [t]
  | PCheckDayOfWeek, [TTuple [[TInt]; [t]]] =>
      if ty_dec t datetime_ty then [t] else if ty_dec t TUnav then [TUnav] else [TAny]
  | PPrependQ, [q; TList _ u] => [TObj (s "MultiDict") [[TList true (TTuple [[TObj (s "CaseInsensitive") [[TLit (s "q")]]]; [q]] :: u)]]]
  | PNoBackslashes, [t] => match as_str t with Some _ => [t] | None => [TAny] end
  | PWellFormed1, [TInt; TNone] => [TTuple [[TInt]; [TNone]]]
  | PWellFormed1, [TInt; TInt] => [TTuple [[TInt]; [TInt]]]
  | PSuffixRange, [t] => [TTuple [[TNone]; [t]]]
  | PWellFormed2, [TObj c [u; [TTuple [bounds; complete]]]] => ts
  | PCheckRealm, [TObj c [u]; TTuple [w; x]] => if is_strs u && is_strs w then [TTuple [[TObj c [u]]; x]] else [TAny]
  | PHSTSCollect, [TList _ u] => [TList false (without_none u)]
  | PRemoveEmpty, [TList _ u] => [TList false (without_none u)]
  | PNormalizeEmptyValue, [TTuple [name; x]] => [TObj (s "Parametrized") [name; TNone :: x]]
  | PNormalizeEmptyValue, [TObj c u] => [TObj (s "Parametrized") [[TObj c u]; [TNone]]]
  | PCheckProtocolId, [t] => match as_str t with Some _ => [TBytes] | None => [TAny] end
  | PForceBytes, [t] => match as_str t with Some _ => [TBytes] | None => [TAny] end
  | PPctDecode, [TBytes] => [TBytes]
  | PCheckExtValue, [TObj c [[TObj c' [u]]; lang; [TBytes]]] => if is_strs u then ts else [TAny]
  | PCheckAltAuthority, _ | PProcessParams, _ => nested_ty p ts
  | _, _ => [TAny]
  end.

Ltac inv_has :=
  repeat match goal with
  | H : Forall2 has (_ :: _) _ |- _ => inversion H; clear H; subst
  | H : Forall2 has [] _ |- _ => inversion H; clear H; subst
  | H : Forall2 hasu (_ :: _) _ |- _ => inversion H; clear H; subst
  | H : Forall2 hasu [] _ |- _ => inversion H; clear H; subst
  | H : has (TObj _ _) _ |- _ => apply has_obj in H; destruct H as [? [-> H]]
  | H : has (TTuple _) _ |- _ => apply has_tuple in H; destruct H as [? [-> H]]
  | H : has (TList _ _) _ |- _ => apply has_list in H; destruct H as [? [-> [? ?]]]
  | H : has TInt _ |- _ => destruct H as [? [-> ?]]
  | H : has TNone _ |- _ => cbn in H; subst
  | H : has TBytes _ |- _ => destruct H as [? ->]
  | H : has TUnav _ |- _ => destruct H as [? ->]
  | H : hasu [_] _ |- _ => apply hasu_one in H
  end.

Lemma str_has t p v : as_str t = Some p -> has t v -> exists x, v = VStr x /\ Forall (fun c => N.testbit (fst (fst p)) c = true) x.
Proof. destruct p as [[b lo] hi]. intros E H. destruct (as_str_ok E H) as [x [-> [F _]]]. eauto. Qed.

Lemma okay_date d : okay (VObj (s "date") d) = true.
Proof. reflexivity. Qed.
Lemma to_date_ok d m y : (0 <= d)%Z -> (0 <= m)%Z -> (0 <= y)%Z -> hasu [date_ty; TUnav] (fst (to_date d m y)).
Proof.
  intros. unfold to_date. destruct (valid_date y m d); cbn [fst].
  - left. apply has_obj. eexists. split; [reflexivity|]. repeat (constructor; [apply hasu_one; eexists; split; [reflexivity|assumption]|]). constructor.
  - right. left. eexists. reflexivity.
Qed.
Lemma moment_ok dow d t vd vt vw : has dow vw -> has d vd -> has t vt -> hasu (moment_tuple dow d t) (to_datetime vw vd vt).
Proof.
  intros Hw Hd Ht.
  assert (K : forall m, hasu (moment d t) m -> to_datetime vw vd vt = VTuple [vw; m] -> hasu (moment_tuple dow d t) (to_datetime vw vd vt)).
  { intros m Hm E. rewrite E. unfold moment_tuple. apply hasu_iff in Hm. destruct Hm as [x [Ix Hx]]. apply hasu_iff.
    destruct (ty_dec x TAny) as [->|N].
    - exists TAny. split; [|exact I]. apply in_flat_map. exists TAny. split; [exact Ix|now left].
    - exists (TTuple [[dow]; [x]]). split; [apply in_flat_map; exists x; split; [exact Ix|]; destruct x; try congruence; now left|].
      apply has_tuple. eexists. split; [reflexivity|]. constructor; [now apply hasu_one|]. constructor; [now apply hasu_one|constructor]. }
  assert (B : In TAny (moment d t) -> hasu (moment_tuple dow d t) (to_datetime vw vd vt)).
  { intro Ia. apply hasu_iff. exists TAny. split; [|exact I]. apply in_flat_map. exists TAny. split; [exact Ia|now left]. }
  destruct (ty_dec d TUnav) as [->|Nd].
  - destruct Hd as [xd ->]. destruct (ty_dec t TUnav) as [->|Nt].
    + destruct Ht as [xt ->]. eapply K; [|reflexivity]. left. eexists. reflexivity.
    + destruct (ty_dec t time_ty) as [->|Nt'].
      * inv_has. eapply K; [|reflexivity]. left. eexists. reflexivity.
      * apply B. destruct t; cbn [moment]; try congruence; (destruct (ty_dec _ time_ty); [congruence|now left]).
  - destruct (ty_dec d date_ty) as [->|Nd'].
    + unfold date_ty in Hd. inv_has. destruct (ty_dec t TUnav) as [->|Nt].
      * destruct Ht as [xt ->]. eapply K; [|reflexivity]. left. eexists. reflexivity.
      * destruct (ty_dec t time_ty) as [->|Nt'].
        -- unfold time_ty in Ht. inv_has. eapply K; [|reflexivity]. left. apply has_obj. eexists. split; [reflexivity|].
           repeat (constructor; [apply hasu_one; eexists; split; [reflexivity|assumption]|]). constructor.
        -- apply B. unfold moment, date_ty. destruct t; try congruence; try (destruct (ty_dec (TObj _ _) _); [|now left]); try (destruct (ty_dec _ time_ty); [congruence|now left]).
    + apply B. destruct d; try congruence; destruct t; cbn [moment]; try (destruct (ty_dec _ date_ty); [congruence|now left]).
Qed.

Ltac cases Z0 := cbn [py_ty]; repeat (match goal with |- hasu (match ?x with _ => _ end) _ => destruct x eqn:? end; subst; try exact Z0).
Ltac ints := repeat (constructor; [apply hasu_one; eexists; split; [reflexivity|assumption]|]); constructor.

Lemma py_ok p ts vs : Forall2 has ts vs -> hasu (py_ty p ts) (fst (pf p vs)).
Proof.
  intro F.
  assert (Z0 : hasu [TAny] (fst (pf p vs))) by (left; exact I).
  destruct p; try exact Z0; try solve [destruct ts; exact Z0].
  - (* PCheckMediaType *)
    cases Z0. inv_has. match goal with E : is_strs ?u = true, H : hasu ?u _ |- _ => destruct (is_strs_ok E H) as [x ->] end.
    cbn [pyfun check_media_type]. destruct (find _ _); cbn [fst]; apply hasu_one, has_obj; eexists; split; try reflexivity; constructor; try assumption; constructor.
  - (* PCheckSensible *)
    cases Z0. inv_has. match goal with H : has (TStr _ _ _) _ |- _ => destruct H as [x [-> [Fx [L W]]]] end. cbn in W. destruct x as [|c [|]]; cbn in L, W; try lia.
    cbn [pyfun fst]. apply hasu_one. exists [c]. cbn. repeat split; auto.
  - (* PStripParens *)
    cases Z0. inv_has. match goal with E : as_str ?t = _, H : has ?t _ |- _ => destruct (str_has E H) as [x [-> Fx]] end.
    cbn [pyfun fst]. apply hasu_one. exists (removelast (tl x)). split; [reflexivity|]. split; [|cbn; split; [lia|exact I]].
    rewrite Forall_forall in *. intros c Ic. apply Fx. destruct x as [|d x]; [destruct Ic|]. cbn [tl] in Ic. right.
    destruct x as [|d' x'] eqn:Q; [destruct Ic|]. rewrite (@app_removelast_last _ (d' :: x') 0%N) by discriminate. apply in_app_iff. now left.
  - (* PJustOneSpace *)
    cases Z0. inv_has. match goal with E : as_str ?t = _, H : has ?t _ |- _ => destruct (str_has E H) as [x [-> Fx]]; apply hasu_one; exact H end.
  - (* PBadWhitespace *)
    cases Z0. inv_has. match goal with E : as_str ?t = _, H : has ?t _ |- _ => destruct (str_has E H) as [x [-> Fx]]; apply hasu_one; exact H end.
  - (* PCollectElements *)
    cases Z0. inv_has. cbn [pyfun fst]. apply hasu_one, has_list. eexists. split; [reflexivity|]. split; [discriminate|now apply without_none_ok].
  - (* PSingleton *)
    cases Z0. inv_has. cbn [pyfun fst]. apply hasu_one, has_list. eexists. split; [reflexivity|]. split; [discriminate|]. constructor; [now apply hasu_one|constructor].
  - (* PEmptyParams *)
    cases Z0. inv_has. cbn [pyfun fst]. apply hasu_one, has_obj. eexists. split; [reflexivity|]. constructor; [now apply hasu_one|]. constructor; [|constructor].
    apply hasu_one, has_obj. eexists. split; [reflexivity|]. constructor; [|constructor]. apply hasu_one, has_list. exists []. repeat split; [discriminate|constructor].
  - (* PToDate *)
    cases Z0. inv_has. cbn [pyfun]. now apply to_date_ok.
  - (* PToTime *)
    cases Z0. inv_has. cbn [pyfun]. unfold to_time. destruct (valid_time _ _ _); cbn [fst].
    + left. apply has_obj. eexists. split; [reflexivity|]. ints.
    + right. left. eexists. reflexivity.
  - (* PToDatetime *)
    cases Z0. inversion F as [|? w ? ? Hw F1]; subst. inversion F1 as [|? d ? ? Hd F2]; subst. inversion F2 as [|? tt ? ? Ht F3]; subst. inversion F3; subst.
    cbn [pyfun fst]. now apply moment_ok.
  - (* PYear19 *)
    cases Z0. inv_has. match goal with E : as_str ?t = _, H : has ?t _ |- _ => destruct (str_has E H) as [x [-> Fx]] end.
    cbn [pyfun fst]. apply hasu_one, int_of_has; [discriminate|]. apply Forall_app. split; [change (s "19") with [49%N; 57%N]; constructor; [lia|constructor; [lia|constructor]]|].
    eapply Forall_impl; [|exact Fx]. intros c Hc. eapply only_digits_ok; eassumption.
  - (* PFromAsctime *)
    destruct ts as [|dow ts]; [exact Z0|]. destruct ts as [|t1 ts]; [exact Z0|]. destruct t1 as [| | | | | | | | | |u| | |]; try exact Z0.
    destruct u as [|[|[] [|]] u]; try exact Z0. destruct u as [|[|[] [|]] u]; try exact Z0. destruct u; try exact Z0.
    destruct ts as [|t2 ts]; [exact Z0|]. destruct ts as [|[] [|]]; try exact Z0. cbn [py_ty].
    inversion F as [|? w ? ? Hw F1]; subst. inversion F1 as [|? d ? ? Hd F2]; subst. inversion F2 as [|? tt ? ? Ht F3]; subst. clear F F1 F2. inv_has.
    cbn [pyfun]. match goal with |- context [to_date ?d ?m ?y] => pose proof (@to_date_ok d m y ltac:(assumption) ltac:(assumption) ltac:(assumption)) as X; destruct (to_date d m y) as [dt cs] end.
    cbn [fst] in *. apply hasu_iff. destruct X as [X|[X|[]]]; pose proof (moment_ok Hw X Ht) as Y; apply hasu_iff in Y; destruct Y as [y [A B]]; exists y; (split; [apply in_app_iff; auto|exact B]).
  - (* PObsoleteDate *)
    cases Z0. inversion F as [|? w ? ? Hw F1]; subst. inversion F1; subst. cbn [pyfun fst]. now apply hasu_one.
  - (* PCheckDayOfWeek *)
    cases Z0.
    + unfold datetime_ty in F. inv_has. cbn [pyfun check_day_of_week]. destruct (_ =? _)%Z; cbn [fst]; apply hasu_one, has_obj; eexists; (split; [reflexivity|]); ints.
    + inv_has. cbn. left. eexists. reflexivity.
  - (* PPrependQ *)
    cases Z0. inversion F as [|? w ? ? Hw F1]; subst. clear F. inv_has. cbn [pyfun fst]. apply hasu_one, has_obj. eexists. split; [reflexivity|].
    constructor; [|constructor]. apply hasu_one, has_list. eexists. split; [reflexivity|]. split; [discriminate|]. constructor.
    + left. apply has_tuple. eexists. split; [reflexivity|]. constructor; [|constructor; [now apply hasu_one|constructor]]. apply hasu_one, has_obj. eexists. split; [reflexivity|]. constructor; [apply hasu_one; reflexivity|constructor].
    + eapply Forall_impl; [|eassumption]. intros v Hv. now right.
  - (* PNoBackslashes *)
    cases Z0. inv_has. match goal with E : as_str ?t = _, H : has ?t _ |- _ => destruct (str_has E H) as [x [-> Fx]]; apply hasu_one; exact H end.
  - (* PWellFormed1 *)
    cases Z0; inv_has; cbn [pyfun fst]; apply hasu_one, has_tuple; eexists; (split; [reflexivity|]);
      (constructor; [apply hasu_one; eexists; split; [reflexivity|assumption]|]); (constructor; [apply hasu_one; first [reflexivity|eexists; split; [reflexivity|assumption]]|constructor]).
  - (* PSuffixRange *)
    cases Z0. inversion F as [|? w ? ? Hw F1]; subst. inversion F1; subst. cbn [pyfun fst]. apply hasu_one, has_tuple. eexists. split; [reflexivity|]. constructor; [apply hasu_one; reflexivity|]. constructor; [now apply hasu_one|constructor].
  - (* PWellFormed2 *)
    cases Z0. inv_has. cbn [pyfun fst]. apply hasu_one, has_obj. eexists. split; [reflexivity|]. constructor; [assumption|]. constructor; [|constructor].
    apply hasu_one, has_tuple. eexists. split; [reflexivity|]. constructor; [assumption|]. constructor; [assumption|constructor].
  - (* PCheckRealm *)
    cases Z0. match goal with E : _ && _ = true |- _ => apply andb_true_iff in E; destruct E as [E1 E2] end. inv_has.
    match goal with H : hasu ?u _ |- _ => destruct (is_strs_ok E1 H) as [xu ->] end. match goal with H : hasu ?u _ |- _ => destruct (is_strs_ok E2 H) as [xw ->] end.
    cbn [pyfun fst]. apply hasu_one, has_tuple. eexists. split; [reflexivity|]. constructor; [|constructor; [assumption|constructor]]. apply hasu_one, has_obj. eexists. split; [reflexivity|]. constructor; [assumption|constructor].
  - (* PHSTSCollect *)
    cases Z0. inv_has. cbn [pyfun fst]. apply hasu_one, has_list. eexists. split; [reflexivity|]. split; [discriminate|now apply without_none_ok].
  - (* PRemoveEmpty *)
    cases Z0. inv_has. cbn [pyfun fst]. apply hasu_one, has_list. eexists. split; [reflexivity|]. split; [discriminate|now apply without_none_ok].
  - (* PNormalizeEmptyValue *)
    cases Z0.
    + inv_has. cbn [pyfun fst]. apply hasu_one, has_obj. eexists. split; [reflexivity|]. constructor; [assumption|]. constructor; [|constructor].
      match goal with |- hasu _ (match ?v with _ => _ end) => destruct v as [[|]| | | | | | | | | | |] end; try (right; assumption). left. reflexivity.
    + inv_has. cbn [pyfun fst]. apply hasu_one, has_obj. eexists. split; [reflexivity|]. constructor; [|constructor; [left; reflexivity|constructor]]. apply hasu_one, has_obj. eexists. split; [reflexivity|assumption].
  - (* PCheckProtocolId *)
    cases Z0. inv_has. match goal with E : as_str ?t = _, H : has ?t _ |- _ => destruct (str_has E H) as [x [-> Fx]] end. left. eexists. reflexivity.
  - (* PCheckAltAuthority *)
    destruct ts; cbn [py_ty pyfun]; inversion F; subst; now apply nested_ok.
  - (* PForceBytes *)
    cases Z0. inv_has. match goal with E : as_str ?t = _, H : has ?t _ |- _ => destruct (str_has E H) as [x [-> Fx]] end. left. eexists. reflexivity.
  - (* PPctDecode *)
    cases Z0. inv_has. left. eexists. reflexivity.
  - (* PCheckExtValue *)
    cases Z0. inv_has. match goal with E : is_strs ?u = true, H : hasu ?u _ |- _ => destruct (is_strs_ok E H) as [xu ->] end.
    cbn [pyfun check_ext_value]. destruct (str_eqb _ _); cbn [fst]; apply hasu_one, has_obj; eexists; (split; [reflexivity|]);
      (constructor; [apply hasu_one, has_obj; eexists; split; [reflexivity|]; constructor; [assumption|constructor]|]); (constructor; [assumption|]); (constructor; [|constructor]); left; eexists; reflexivity.
  - (* PProcessParams *)
    destruct ts; cbn [py_ty pyfun]; inversion F; subst; now apply nested_ok.
Qed.

Definition func_ty (f : func) (ts : list ty) : list ty :=
  match f with
  | FSkipArgs => [TSkip]
  | FJoinArgs => match join_exact ts with Some (c :: x) => [TLit (c :: x)] | _ => match join_strs ts with Some (b, lo, hi) => [TStr b lo hi] | None => [TAny] end end
  | FSubst v => [const_ty v]
  | FAsList => [TList (match ts with [] => false | _ => true end) (join ts [])]
  | FBeginList =>
      match ts with
      | [] => [TAny]
      | [t] => [TList true [t]]
      | _ => [TList true [TTuple (map (fun t => [t]) ts)]]
      end
  | FContinueList =>
      match rev ts with
      | [TList _ u; t] => [TList true (insert t u)]
      | TList _ u :: y :: z :: rest => [TList true (insert (TTuple (map (fun t => [t]) (rev (y :: z :: rest)))) u)]
      | _ => [TAny]
      end
  | FJoin =>
      match ts with
      | [TList ne u] => match elts_strs u with Some (b, lo) => [TStr b (if ne then lo else 0) None] | None => [TAny] end
      | _ => [TAny]
      end
  | FAdd =>
      match ts with
      | [TList ne u; TList ne' u'] => [TList (ne || ne') (join u u')]
      | [_; _] => match join_strs ts with Some (b, lo, hi) => [TStr b lo hi] | None => [TAny] end
      | _ => [TAny]
      end
  | FMark x => match ts with [t] => [TTuple [[TLit x]; [t]]] | _ => [TAny] end
  | FInt =>
      match ts with
      | [t] => match as_str t with Some (b, S _, _) => if only_digits b then [TInt] else [TAny] | _ => [TAny] end
      | _ => [TAny]
      end
  | FFloat => match ts with [t] => match as_str t with Some _ => [TFloat] | None => [TAny] end | _ => [TAny] end
  | FClass c => [TObj c (map (fun t => [t]) ts)]
  | FPy p => py_ty p ts
  end.

Lemma Forall2_rev {A B} (R : A -> B -> Prop) l l' : Forall2 R l l' -> Forall2 R (rev l) (rev l').
Proof. induction 1; cbn; [constructor|]. apply Forall2_app; auto. Qed.

Lemma func_ok f ts vs : Forall2 has ts vs -> hasu (func_ty f ts) (fst (call_func pf f vs)).
Proof.
  intro F. assert (Z0 : hasu [TAny] (fst (call_func pf f vs))) by (left; exact I). destruct f; cbn [func_ty].
  - left. reflexivity.
  - assert (X : forall c x, join_exact ts = Some (c :: x) -> hasu [TLit (c :: x)] (fst (call_func pf FJoinArgs vs))).
    { intros c x E. cbn [call_func fst]. rewrite (join_exact_ok E F). now apply hasu_one. }
    assert (Y : hasu (match join_strs ts with Some (b, lo, hi) => [TStr b lo hi] | None => [TAny] end) (fst (call_func pf FJoinArgs vs))).
    { destruct (join_strs ts) as [[[b lo] hi]|] eqn:E; [|exact Z0]. destruct (join_strs_ok E F) as [x [J H]]. cbn [call_func fst]. rewrite J. now apply hasu_one. }
    destruct (join_exact ts) as [[|c x]|]; [exact Y|exact (X _ _ eq_refl)|exact Y].
  - left. apply const_ok.
  - apply hasu_one, has_list. cbn [call_func fst]. exists vs. split; [reflexivity|]. split; [inversion F; congruence|].
    assert (G : Forall (hasu ts) vs) by (apply singles_all; exact F). eapply Forall_impl; [|exact G]. intros v H. now apply join_l.
  - destruct ts as [|t [|t2 ts]]; [exact Z0| |].
    + inversion F as [|? v ? vs' H1 H2]; subst. inversion H2; subst. cbn [call_func fst]. apply hasu_one, has_list. eexists. split; [reflexivity|]. split; [discriminate|]. constructor; [now apply hasu_one|constructor].
    + pose proof (singles F) as S. inversion F as [|? v ? vs' H1 H2]; subst. inversion H2 as [|? v2 ? vs2 H3 H4]; subst. cbn [call_func fst]. apply hasu_one, has_list. eexists. split; [reflexivity|]. split; [discriminate|].
      constructor; [|constructor]. apply hasu_one, has_tuple. eexists. split; [reflexivity|exact S].
  - pose proof (Forall2_rev F) as R. destruct (rev ts) as [|t rts] eqn:E; [exact Z0|].
    destruct t; try exact Z0. destruct rts as [|y [|z rest]]; [exact Z0| |].
    + cbn [call_func]. inversion R as [|? v ? vs' H1 H2 E1 E2]; subst. inversion H2 as [|? v2 ? vs2 H3 H4]; subst. inversion H4; subst.
      apply has_list in H1. destruct H1 as [l [-> [N L]]]. cbn [fst]. apply hasu_one, has_list. eexists. split; [reflexivity|]. split; [discriminate|].
      constructor; [now apply insert_in|]. eapply Forall_impl; [|exact L]. intros w Hw. now apply insert_keep.
    + cbn [call_func]. inversion R as [|? v ? vs' H1 H2 E1 E2]; subst. inversion H2 as [|? v2 ? vs2 H3 H4]; subst. inversion H4 as [|? v3 ? vs3 H5 H6]; subst.
      apply has_list in H1. destruct H1 as [l [-> [N L]]]. cbn [fst]. apply hasu_one, has_list. eexists. split; [reflexivity|]. split; [discriminate|].
      constructor; [|eapply Forall_impl; [|exact L]; intros w Hw; now apply insert_keep]. apply insert_in, has_tuple. eexists. split; [reflexivity|]. apply singles, Forall2_rev. now repeat constructor.
  - destruct ts as [|t [|]]; try exact Z0; try (destruct t; exact Z0). destruct t; try exact Z0. destruct (elts_strs elts) as [[b lo]|] eqn:E; [|exact Z0].
    inversion F as [|? v ? vs' H1 H2]; subst. inversion H2; subst. apply has_list in H1. destruct H1 as [l [-> [N L]]]. 
    destruct (@join_elts b lo l) as [x [J [Fx Lx]]]; [eapply Forall_impl; [|exact L]; intros w Hw; now apply elts_strs_ok with elts|].
    cbn [call_func fst]. rewrite J. apply hasu_one. exists x. split; [reflexivity|]. split; [exact Fx|]. split; [|exact I]. destruct ne; [apply Lx, N; reflexivity|lia].
  - assert (G : forall a b, ts = [a; b] -> hasu (match join_strs [a; b] with Some (b, lo, hi) => [TStr b lo hi] | None => [TAny] end) (fst (call_func pf FAdd vs))).
    { intros a b ->. destruct (join_strs [a; b]) as [[[bb lo] hi]|] eqn:E; [|exact Z0]. destruct (join_strs_ok E F) as [x [J H]].
      inversion F as [|? v ? vs' H1 H2]; subst. inversion H2 as [|? v2 ? vs2 H3 H4]; subst. inversion H4; subst.
      cbn [join_strs] in E. destruct (as_str a) as [[[? ?] ?]|] eqn:Ea; [|discriminate]. destruct (as_str b) as [[[? ?] ?]|] eqn:Eb; [|discriminate].
      destruct (str_has Ea H1) as [xa [-> _]]. destruct (str_has Eb H3) as [xb [-> _]]. cbn in J. rewrite app_nil_r in J. injection J as <-. cbn [call_func fst]. now apply hasu_one. }
    destruct ts as [|a [|b [|]]]; try exact Z0; try (destruct a; exact Z0).
    + specialize (G a b eq_refl). destruct a; try exact G. destruct b; try exact G. clear G.
      inversion F as [|? v ? vs' H1 H2]; subst. inversion H2 as [|? v2 ? vs2 H3 H4]; subst. inversion H4; subst.
      apply has_list in H1. destruct H1 as [l [-> [N L]]]. apply has_list in H3. destruct H3 as [l2 [-> [N2 L2]]]. cbn [call_func fst]. apply hasu_one, has_list. eexists. split; [reflexivity|].
      split; [intro Q; apply orb_true_iff in Q; destruct Q as [Q|Q]; [specialize (N Q); destruct l; [congruence|discriminate]|specialize (N2 Q); destruct l, l2; try congruence; discriminate]|].
      apply Forall_app. split; [eapply Forall_impl; [|exact L]; intros w Hw; now apply join_l|eapply Forall_impl; [|exact L2]; intros w Hw; now apply join_r].
    + destruct a; try exact Z0. destruct b; exact Z0.
  - destruct ts as [|t [|]]; try exact Z0. inversion F as [|? v ? vs' H1 H2]; subst. inversion H2; subst. cbn [call_func fst]. apply hasu_one, has_tuple. eexists. split; [reflexivity|].
    constructor; [apply hasu_one; reflexivity|]. constructor; [now apply hasu_one|constructor].
  - destruct ts as [|t [|]]; try exact Z0. destruct (as_str t) as [[[b [|lo]] hi]|] eqn:E; try exact Z0. destruct (only_digits b) eqn:D; [|exact Z0].
    inversion F as [|? v ? vs' H1 H2]; subst. inversion H2; subst. destruct (as_str_ok E H1) as [x [-> [Fx [L _]]]]. cbn [call_func fst]. apply hasu_one, int_of_has; [destruct x; cbn in L; [lia|discriminate]|].
    eapply Forall_impl; [|exact Fx]. intros c Hc. now apply only_digits_ok with b.
  - destruct ts as [|t [|]]; try exact Z0. destruct (as_str t) as [[[b lo] hi]|] eqn:E; try exact Z0.
    inversion F as [|? v ? vs' H1 H2]; subst. inversion H2; subst. destruct (str_has E H1) as [x [-> Fx]]. cbn [call_func fst]. left. eexists. reflexivity.
  - cbn [call_func fst]. apply hasu_one, has_obj. eexists. split; [reflexivity|]. now apply singles.
  - now apply py_ok.
Qed.

(** ** Rules and symbols *)

(** As [run_action]. *)
Fixpoint run_ty (a : raction) (nodes : list (list ty)) : list (list (list ty)) :=
  match a with
  | ANone => [nodes]
  | AConcat len1 a1 a2 =>
      let r2 := run_ty a2 (skipn len1 nodes) in
      flat_map (fun n1 => map (fun n2 => n1 ++ n2) r2) (run_ty a1 (firstn len1 nodes))
  | AWrap f inner =>
      let u := joins (map (func_ty f) (flat_map choices (flat_map resolve (run_ty inner nodes)))) in
      (if existsb can_skip u then [[]] else []) ++ (match filter keeps u with [] => [] | u' => [[u']] end)
  end.
Lemma F2_firstn {A B} (R : A -> B -> Prop) l l' n : Forall2 R l l' -> Forall2 R (firstn n l) (firstn n l').
Proof. intro F. revert n. induction F; intros [|n]; cbn; constructor; auto. Qed.
Lemma F2_skipn {A B} (R : A -> B -> Prop) l l' n : Forall2 R l l' -> Forall2 R (skipn n l) (skipn n l').
Proof. intro F. revert n. induction F; intros [|n]; cbn; try constructor; auto. Qed.
Lemma can_skip_ok ts : hasu ts VSkip -> existsb can_skip ts = true.
Proof.
  intro H. apply hasu_iff in H. destruct H as [t [It Ht]]. apply existsb_exists. exists t. split; [exact It|].
  destruct t; try reflexivity; cbn in Ht; try discriminate Ht; destruct Ht as [? Ht]; try discriminate Ht; destruct Ht; discriminate.
Qed.
Lemma keeps_ok ts v : is_vskip v = false -> hasu ts v -> hasu (filter keeps ts) v.
Proof.
  intros E H. apply hasu_iff in H. destruct H as [t [It Ht]]. apply hasu_iff. exists t. split; [|exact Ht]. apply filter_In. split; [exact It|].
  destruct t; try reflexivity. cbn in Ht. subst v. discriminate E.
Qed.
Lemma run_ok a : forall nodes vs, Forall2 hasu nodes vs -> exists alt, In alt (run_ty a nodes) /\ Forall2 hasu alt (fst (run_action pf a vs)).
Proof.
  induction a as [|n a1 IH1 a2 IH2|f a IH]; intros nodes vs F; cbn [run_ty run_action].
  - exists nodes. split; [now left|exact F].
  - destruct (IH1 _ _ (F2_firstn n F)) as [l1 [I1 F1]]. destruct (IH2 _ _ (F2_skipn n F)) as [l2 [I2 F2]].
    destruct (run_action pf a1 _) as [n1 c1]. destruct (run_action pf a2 _) as [n2 c2]. cbn [fst] in *.
    exists (l1 ++ l2). split; [|now apply Forall2_app]. apply in_flat_map. exists l1. split; [exact I1|]. apply in_map_iff. eauto.
  - destruct (IH _ _ F) as [l [I1 F1]]. destruct (run_action pf a vs) as [n c]. cbn [fst] in F1.
    destruct (resolve_ok F1) as [l' [I2 F2]]. destruct (choices_ok F2) as [ts [I3 F3]]. pose proof (func_ok f F3) as H. unfold nonskip in H.
    destruct (call_func pf f _) as [r c']. cbn [fst] in *.
    assert (G : hasu (joins (map (func_ty f) (flat_map choices (flat_map resolve (run_ty a nodes))))) r).
    { apply joins_in with (ts := func_ty f ts); [|exact H]. apply in_map, in_flat_map. exists l'. split; [|exact I3]. apply in_flat_map. eauto. }
    set (u := joins _) in *. destruct (is_vskip r) eqn:E.
    + exists []. split; [|constructor]. apply in_app_iff. left. destruct r; try discriminate. rewrite (can_skip_ok G). now left.
    + pose proof (keeps_ok E G) as K. exists [filter keeps u]. split; [|now constructor]. apply in_app_iff. right. destruct (filter keeps u); [destruct K|now left].
Qed.

Variable rec_ty : str -> list ty.
Fixpoint alts (x : symbol) : list (list (list ty)) :=
  match x with
  | Term _ b => [[[TStr b 1 (Some 1)]]]
  | Simple _ rs => flat_map (fun r => match r with (xs, a) => run_ty a (map (fun x => collapse_ty (alts x)) xs) end) rs
  | Repeated _ None y => [[[TList false (collapse_ty (alts y))]]]
  | Repeated _ (Some _) y =>
      let u := collapse_ty (alts y) in
      if existsb can_skip u then [[[TAny]]] else [[[TList false u]]]
  | Rec n => [[rec_ty n]]
  end.
Definition infer (x : symbol) : list ty := collapse_ty (alts x).

Variable rec_rules : str -> list rule.
Notation mns := (means rec_rules pf).
Definition rec_ok (n : nat) : Prop := forall m w v cs, List.length w <= n -> mns (Rec m) w v cs -> hasu (rec_ty m) v.
Definition sound (n : nat) (x : symbol) : Prop := forall w v cs, List.length w <= n -> mns x w v cs -> hasu (infer x) v.

Lemma collapse_one' v : collapse [v] = v.
Proof. unfold collapse. cbn. destruct (is_vskip v) eqn:E; [now destruct v|reflexivity]. Qed.
Lemma infer_one x ts v : alts x = [[ts]] -> hasu ts v -> hasu (infer x) v.
Proof. intros E H. unfold infer. rewrite E, <- (collapse_one' v). apply collapse_ok with (alt := [ts]); [now left|]. constructor; [exact H|constructor]. Qed.
Lemma seq_sound n xs w vs kc : Forall (sound n) xs -> List.length w <= n -> means_seq rec_rules pf xs w vs kc -> Forall2 hasu (map infer xs) vs.
Proof.
  intros F L M. revert F L. induction M as [|x xs w ws v vs cs css M1 M2 IH]; intros F L; [constructor|].
  inversion F as [|? ? S F']; subst. rewrite app_length in L. cbn [map]. constructor; [eapply S; [|exact M1]; lia|apply IH; [exact F'|lia]].
Qed.
Lemma rule_sound n xs a w nodes kc ac : Forall (sound n) xs -> List.length w <= n -> rmeans rec_rules pf (xs, a) w nodes kc ac ->
  exists alt, In alt (run_ty a (map infer xs)) /\ Forall2 hasu alt nodes.
Proof.
  intros F L [vs [M R]]. cbn [fst snd] in *. destruct (run_ok a (seq_sound F L M)) as [alt [I A]]. rewrite R in A. eauto.
Qed.
Lemma am_means y w n kc ac : ameans rec_rules pf y w n kc ac -> mns y w (collapse n) (kc ++ ac).
Proof.
  intro A. destruct (eph1 y) eqn:E.
  - rewrite am_eph in A by exact E. apply means_nm. eauto 6.
  - rewrite am_node in A by exact E. destruct A as [v [M [-> ->]]]. rewrite collapse_one', app_nil_r. exact M.
Qed.

Lemma bounded_sound n y : sound n y -> existsb can_skip (infer y) = false ->
  forall m i w v cs, List.length w <= n -> mns (Repeated i (Some m) y) w v cs -> exists l, v = VList l /\ Forall (hasu (infer y)) l.
Proof.
  intros S K.
  assert (T : forall w nodes cs, List.length w <= n -> mns y w (collapse nodes) cs -> nonskip nodes <> [] /\ hasu (infer y) (collapse nodes)).
  { intros w nodes cs L M. pose proof (S _ _ _ L M) as H. split; [|exact H]. intro Q. unfold collapse in H. unfold nonskip in Q. rewrite Q in H. apply can_skip_ok in H. congruence. }
  assert (B : forall w nodes kc ac, List.length w <= n -> nmeans rec_rules pf (wrap FBeginList y) w nodes kc ac -> exists l, nodes = [VList l] /\ Forall (hasu (infer y)) l).
  { intros w nodes kc ac L H. rewrite nm_wrap in H by reflexivity. destruct H as [n' [a [v [c [N [E [-> _]]]]]]].
    destruct (T w n' (kc ++ a) L) as [X1 X2]; [apply means_nm; eauto 6|]. unfold collapse in X2. fold (nonskip n') in X2. cbn in E.
    destruct (nonskip n') as [|x [|x2 r]]; [congruence| |]; injection E as <- <-; eexists; (split; [reflexivity|]); (constructor; [exact X2|constructor]). }
  induction m as [m IH] using (well_founded_induction lt_wf). intros i w v cs L M. apply nm_repeated_bounded in M. destruct M as [nodes [kc [ac [-> [-> M]]]]].
  assert (D : exists l, nodes = [VList l] /\ Forall (hasu (infer y)) l).
  { destruct m as [|[|m]]; rewrite nm_alt, nm_subst_nil in M; (destruct M as [[-> [-> _]]|M]; [exists []; split; [reflexivity|constructor]|]).
    - eapply B; eauto.
    - eapply B; eauto.
    - rewrite nm_wrap in M by reflexivity. destruct M as [n' [a [v [c [N [E [-> _]]]]]]]. apply nm_seq in N.
      destruct N as [w1 [w2 [n1 [n2 [k1 [k2 [a1 [a2 [-> [-> [-> [-> [A1 A2]]]]]]]]]]]]]. rewrite app_length in L.
      apply am_means in A1. rewrite am_node in A2 by reflexivity. destruct A2 as [v2 [M2 [-> ->]]].
      assert (L1 : List.length w1 <= n) by lia. assert (L2 : List.length w2 <= n) by lia.
      destruct (IH (Datatypes.S m) (Nat.lt_succ_diag_r _) _ _ _ _ L2 M2) as [l [-> Fl]].
      destruct (T w1 n1 (k1 ++ a1) L1 A1) as [X1 X2]. unfold collapse in X2. fold (nonskip n1) in X2.
      assert (NA : nonskip (n1 ++ [VList l]) = nonskip n1 ++ [VList l]) by (unfold nonskip; rewrite filter_app; reflexivity).
      rewrite NA in E. cbn [call_func] in E. rewrite rev_unit in E. destruct (nonskip n1) as [|x r] eqn:Q using rev_ind; [congruence|]. clear IHr.
      rewrite rev_unit in E. destruct r as [|x0 r] using rev_ind; [|clear IHr; rewrite rev_unit in E].
      + cbn in E, X2. injection E as <- <-. eexists. split; [reflexivity|]. now constructor.
      + change (x :: x0 :: rev r) with ([x] ++ [x0] ++ rev r) in E. assert (RR : rev (x :: x0 :: rev r) = (r ++ [x0]) ++ [x]) by (cbn; now rewrite rev_involutive).
        cbn [app] in E. rewrite RR in E. injection E as <- <-. eexists. split; [reflexivity|]. constructor; [|exact Fl].
        destruct r as [|r0 [|r1 r]]; exact X2. }
  destruct D as [l [-> Fl]]. rewrite collapse_one'. eauto.
Qed.

Lemma infer_ok n : rec_ok n -> forall x, sound n x.
Proof.
  intros R x. induction x as [nm b|i rs IH|i m y IH|nm] using symbol_ind'; intros w v cs L M.
  - apply means_term in M. destruct M as [c [B [-> [-> ->]]]]. eapply infer_one; [reflexivity|]. left. exists [c]. cbn. repeat split; auto.
  - apply means_simple in M. destruct M as [[xs a] [nodes [kc [ac [Ir [RM [-> ->]]]]]]].
    rewrite Forall_forall in IH. specialize (IH _ Ir). cbn [fst] in IH. destruct (rule_sound IH L RM) as [alt [Ia Fa]].
    unfold infer. apply collapse_ok with alt; [|exact Fa]. cbn [alts]. apply in_flat_map. exists (xs, a). split; [exact Ir|exact Ia].
  - destruct m as [m|].
    + destruct (existsb can_skip (infer y)) eqn:K.
      * apply infer_one with (ts := [TAny]); [cbn [alts]; fold (infer y); now rewrite K|left; exact I].
      * destruct (bounded_sound IH K L M) as [l [-> Fl]]. apply infer_one with (ts := [TList false (infer y)]); [cbn [alts]; fold (infer y); now rewrite K|].
        apply hasu_one, has_list. exists l. repeat split; [discriminate|exact Fl].
    + apply means_repeated in M. destruct M as [vs [M ->]]. apply infer_one with (ts := [TList false (infer y)]); [reflexivity|].
      apply hasu_one, has_list. exists vs. repeat split; [discriminate|]. revert L. induction M as [|w ws v vs cs css M1 M2 IHM]; intro L; [constructor|].
      rewrite app_length in L. constructor; [eapply IH; [|exact M1]; lia|apply IHM; lia].
  - eapply infer_one; [reflexivity|]. eapply R; eauto.
Qed.
End Infer.

(** ** The recursive symbol *)

Section Comment.
Variable nested : pyf -> list val -> val * list vcomplaint.
Variable nested_ty : pyf -> list ty -> list ty.
Hypothesis nested_ok : forall p ts vs, Forall2 has ts vs -> hasu (nested_ty p ts) (fst (nested p vs)).
Notation pf := (pyfun nested).

Definition text_bits : N := N.ones 256.
Definition rec_ty (n : str) : list ty := [TStr text_bits 0 None].
Notation inf := (infer nested_ty rec_ty).

(** A type among types that only repeat it. *)
Definition sub_str (t : ty) : bool := match as_str t with Some (b, _, _) => N.eqb (N.ldiff b text_bits) 0 | None => false end.
Lemma sub_str_ok t v : sub_str t = true -> has t v -> has (TStr text_bits 0 None) v.
Proof.
  unfold sub_str. destruct (as_str t) as [[[b lo] hi]|] eqn:E; [|discriminate]. intros D H. destruct (as_str_ok E H) as [x [-> [F _]]].
  apply N.eqb_eq in D. exists x. split; [reflexivity|]. split; [|split; [lia|exact I]]. eapply Forall_impl; [|exact F]. intros c Hc.
  assert (X : N.testbit (N.ldiff b text_bits) c = false) by (rewrite D; apply N.bits_0). rewrite N.ldiff_spec, Hc in X. destruct (N.testbit text_bits c); [reflexivity|discriminate X].
Qed.
Definition sub_strs (alts : list (list (list ty))) : bool := forallb (forallb (fun ts => forallb sub_str ts)) alts && forallb (fun a => Nat.eqb (List.length a) 1) alts.

(** Every rule of [comment] begins with a character. *)
Definition starts (r : rule) : bool := match fst r with Term _ _ :: _ => true | _ => false end.
Lemma comment_starts : forallb starts comment_rules = true.
Proof. vm_compute. reflexivity. Qed.
Lemma comment_strs :
  forallb (fun r => match r with (xs, a) => sub_strs (run_ty nested_ty a (map inf xs)) end) comment_rules = true.
Proof. vm_compute. reflexivity. Qed.

Lemma comment_ok n : rec_ok nested rec_ty rec_rules n.
Proof.
  induction n as [|n IH]; intros m w v cs L M; apply means_rec in M; destruct M as [[xs a] [nodes [kc [ac [Ir [[vs [MS RA]] [-> ->]]]]]]];
    cbn [fst snd] in *; unfold rec_rules in Ir; (destruct (str_eqb m (s "comment")); [|destruct Ir]);
    pose proof (proj1 (forallb_forall _ _) comment_starts _ Ir) as St; unfold starts in St; cbn [fst] in St; destruct xs as [|[nm b| | |] xs]; try discriminate St;
    inversion MS as [|? ? w1 ws v1 vs1 c1 cs1 M1 M2]; subst; apply means_term in M1; destruct M1 as [c [B [-> [-> ->]]]]; cbn in L; [lia|].
  assert (F : Forall2 hasu (map inf (Term nm b :: xs)) (VStr [c] :: vs1)).
  { cbn [map]. constructor; [apply infer_one with (ts := [TStr b 1 (Some 1)]); [reflexivity|]; left; exists [c]; cbn; repeat split; auto|].
    apply (@seq_sound nested nested_ty rec_ty rec_rules n xs ws vs1 cs1); [|lia|exact M2]. apply Forall_forall. intros x _. now apply infer_ok. }
  destruct (run_ok nested_ok a F) as [alt [Ia Fa]]. rewrite RA in Fa. cbn [fst] in Fa.
  pose proof (proj1 (forallb_forall _ _) comment_strs _ Ir) as Q. cbn beta iota in Q. apply andb_true_iff in Q. destruct Q as [Q1 Q2].
  pose proof (proj1 (forallb_forall _ _) Q1 _ Ia) as Q3. pose proof (proj1 (forallb_forall _ _) Q2 _ Ia) as Q4. cbn beta in Q3, Q4. apply Nat.eqb_eq in Q4.
  destruct alt as [|ts [|]]; try discriminate Q4. inversion Fa as [|? v ? ? H1 H2]; subst. inversion H2; subst. rewrite collapse_one'.
  cbn [forallb] in Q3. rewrite andb_true_r in Q3. apply hasu_iff in H1. destruct H1 as [t [It Ht]]. apply hasu_one. apply sub_str_ok with t; [|exact Ht].
  now apply (proj1 (forallb_forall _ _) Q3).
Qed.

(** What a symbol of the grammar reads has the type inferred for it. *)
Theorem typed x w v cs : means rec_rules pf x w v cs -> hasu (inf x) v.
Proof. intro M. eapply infer_ok with (n := List.length w); [exact nested_ok|apply comment_ok|reflexivity|exact M]. Qed.
End Comment.
