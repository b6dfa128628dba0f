(** C66: how the arguments of directives are judged, and how directives are
    looked up.  C65 for whole header views. *)
From Coq Require Import ZifyBool ZifyNat ZifyN String Sorted.
From Verif Require Import Base Earley Grammar Syntax Actions Structure Known Header HeaderProofs P_Header Types Nested NestedTypes P_Types.
Open Scope nat_scope.
Open Scope list_scope.
Unset Strict Implicit.
Import P_Header.

(** ** Specification *)

(** A name of the class [c], written [n]. *)
Definition word (c n : str) : val := VObj c [VStr n].
(** [name[=argument]] after processing. *)
Definition pair_of (c n : str) (a : val) : val := VObj (s "Parametrized") [word c n; a].
(** [i] is what the table [t] says about [n].  Names of parameters of Alt-Svc
    are compared with case, all others without. *)
Definition knows (ci : bool) (t : list arg_info) (n : str) (i : arg_info) : Prop :=
  In i t /\ (if ci then P_Header.same_name (ak_key i) n else ak_key i = n).

(** An argument [given] to [n], in the entry at [p], is taken as [result] and
    reported with [ns]. *)
Inductive judged (read : symbol -> str -> option (val * list vcomplaint)) (ci : bool) (t : list arg_info) (p : place) (c n : str)
  : val -> val -> list notice -> Prop :=
| jd_missing i : knows ci t n i -> ak_argument i = Some ArgRequired ->
    judged read ci t p c n VNone (VUnavailable (VStr [])) [(1156%N, [(s "entry", AEntry p); (s "name", AVal (word c n))])]
| jd_none : (forall i, knows ci t n i -> ak_argument i <> Some ArgRequired) ->
    judged read ci t p c n VNone VNone []
| jd_forbidden i w : knows ci t n i -> ak_argument i = Some ArgNo ->
    judged read ci t p c n (VStr w) (VUnavailable (VStr w)) [(1157%N, [(s "entry", AEntry p); (s "name", AVal (word c n))])]
| jd_parsed i w x v cs : knows ci t n i -> ak_argument i <> Some ArgNo -> ak_syntax i = Some x -> read x w = Some (v, cs) ->
    judged read ci t p c n (VStr w) v (map (placed p [(s "name", AVal (word c n)); (s "value", AVal (VStr w))]) cs)
| jd_malformed i w x : knows ci t n i -> ak_argument i <> Some ArgNo -> ak_syntax i = Some x -> read x w = None ->
    judged read ci t p c n (VStr w) (VUnavailable (VBytes w)) [(1158%N, [error_arg; (s "place", AEntry p); (s "name", AVal (word c n)); (s "value", AVal (VStr w))])]
| jd_free w : (forall i, knows ci t n i -> ak_argument i <> Some ArgNo /\ ak_syntax i = None) ->
    judged read ci t p c n (VStr w) (VStr w) [].

(** A pair as parsed, and as processed. *)
Definition judged_pair read ci t p (a b : val) (ns : list notice) : Prop :=
  exists c n given r, (a = pair_of c n given \/ a = VTuple [word c n; given]) /\ b = pair_of c n r /\ judged read ci t p c n given r ns.
(** A cache directive also says how its argument was written.  [wrong_form]:
    the other form is preferred. *)
Inductive wrong_form (c n : str) : string -> list notice -> Prop :=
| wf_quoted i : knows true cache_directive_table n i -> ak_form i = Some FormQuotedString ->
    wrong_form c n "token" [(1154%N, [(s "directive", AVal (word c n))])]
| wf_token i : knows true cache_directive_table n i -> ak_form i = Some FormToken ->
    wrong_form c n "quoted-string" [(1155%N, [(s "directive", AVal (word c n))])]
| wf_right_token : (forall i, knows true cache_directive_table n i -> ak_form i <> Some FormQuotedString) -> wrong_form c n "token" []
| wf_right_quoted : (forall i, knows true cache_directive_table n i -> ak_form i <> Some FormToken) -> wrong_form c n "quoted-string" [].
Definition judged_directive read p (a b : val) (ns : list notice) : Prop :=
  exists c n r, b = pair_of c n r /\
  ((a = pair_of c n VNone /\ judged read true cache_directive_table p c n VNone r ns) \/
   (exists form w ns1 ns2, a = pair_of c n (VTuple [VStr (s form); VStr w]) /\ wrong_form c n form ns1 /\
     judged read true cache_directive_table p c n (VStr w) r ns2 /\ ns = ns1 ++ ns2)).

(** Something done to each element, in order. *)
Inductive one_by_one (R : val -> val -> list notice -> Prop) : list val -> list val -> list notice -> Prop :=
| obo_nil : one_by_one R [] [] []
| obo_cons a b ns l l' ns' : R a b ns -> one_by_one R l l' ns' -> one_by_one R (a :: l) (b :: l') (ns ++ ns').

(** The parsed value of one field, and what is made of it. *)
Inductive processed (read : symbol -> str -> option (val * list vcomplaint)) (p : place) : string -> val -> val -> list notice -> Prop :=
| pd_cache l l' ns : one_by_one (judged_directive read p) l l' ns -> processed read p "Cache-Control" (VList l) (VList l') ns
| pd_hsts l l' ns : one_by_one (judged_pair read true hsts_directive_table p) l l' ns -> processed read p "Strict-Transport-Security" (VList l) (VList l') ns
| pd_applied l l' ns : one_by_one (judged_pair read true preference_table p) l l' ns -> processed read p "Preference-Applied" (VList l) (VList l') ns
| pd_prefer l l' ns :
    one_by_one (fun a b ns => exists x y ps, a = VObj (s "Parametrized") [x; ps] /\ b = VObj (s "Parametrized") [y; ps] /\
      judged_pair read true preference_table p x y ns) l l' ns -> processed read p "Prefer" (VList l) (VList l') ns
| pd_clear : processed read p "Alt-Svc" (VStr (s "clear")) (VStr (s "clear")) []
| pd_alternatives l l' ns :
    one_by_one (fun a b ns => exists item x y, a = VObj (s "Parametrized") [item; VObj (s "MultiDict") [VList x]] /\
      b = VObj (s "Parametrized") [item; VObj (s "MultiDict") [VList y]] /\
      one_by_one (judged_pair read false alt_svc_param_table p) x y ns) l l' ns -> processed read p "Alt-Svc" (VList l) (VList l') ns
| pd_forwarded l l' ns dups :
    one_by_one (fun a b ns => exists x y, a = VList x /\ b = VList y /\ one_by_one (judged_pair read true forwarded_param_table p) x y ns) l l' ns ->
    (* repeated parameters are the subject of C63 *)
    Forall (fun n => fst n = 1296%N \/ fst n = 1297%N) dups ->
    processed read p "Forwarded" (VList l) (VList l') (ns ++ dups).

(** What an entry gives: its value and what is reported. *)
Inductive entry_gives (read : symbol -> str -> option (val * list vcomplaint)) (key : string) (p : place) (w : str) : val -> list notice -> Prop :=
| eg_malformed i x : known_as i (s key) -> hk_syntax i = Some x -> read x w = None ->
    entry_gives read key p w (VUnavailable (VBytes w)) [(1000%N, [error_arg; (s "place", AEntry p)])]
| eg_parsed i x v cs v' ns delims : known_as i (s key) -> hk_syntax i = Some x -> read x w = Some (v, cs) ->
    processed read p key v v' ns ->
    (* delimiters inside quoted strings are the subject of C62 *)
    Forall (fun n => fst n = 1299%N \/ fst n = 1300%N) delims ->
    entry_gives read key p w v' (map (placed p []) cs ++ ns ++ delims).

(** ** Proofs *)

Definition all_tables : list (bool * list arg_info) :=
  [(true, cache_directive_table); (true, hsts_directive_table); (false, alt_svc_param_table); (true, preference_table); (true, forwarded_param_table)].
Definition key_of (ci : bool) (n : str) : str := if ci then lower n else n.
Lemma find_arg_spec ci t n i : NoDup (map (fun i => key_of ci (ak_key i)) t) -> (find_arg ci t n = Some i <-> knows ci t n i).
Proof.
  unfold knows. induction t as [|j t IH]; intro N; cbn [find_arg].
  - split; [discriminate|intros [[] _]].
  - inversion N as [|? ? N1 N2]; subst.
    assert (K : (if ci then ci_eq (ak_key j) n else str_eqb (ak_key j) n) = true <-> key_of ci (ak_key j) = key_of ci n) by (destruct ci; [apply ci_eq_lower|apply str_eqb_eq]).
    assert (Q : forall k, (if ci then P_Header.same_name (ak_key k) n else ak_key k = n) <-> key_of ci (ak_key k) = key_of ci n) by (intro k; destruct ci; [apply same_name_lower|reflexivity]).
    destruct (if ci then ci_eq (ak_key j) n else str_eqb (ak_key j) n).
    + pose proof (proj1 K eq_refl) as E. split.
      * intro H. injection H as <-. split; [now left|now apply Q].
      * intros [[->|I] H]; [reflexivity|]. exfalso. apply N1. apply Q in H. rewrite E, <- H. exact (in_map (fun i => key_of ci (ak_key i)) t i I).
    + rewrite (IH N2). split; intros [I H]; [split; [now right|exact H]|]. destruct I as [->|I]; [|auto]. apply Q in H. apply K in H. discriminate.
Qed.
Lemma tables_distinct : forallb (fun x => nodupb (map (fun i => key_of (fst x) (ak_key i)) (snd x))) all_tables = true.
Proof. vm_compute. reflexivity. Qed.
Lemma find_arg_knows ci t n i : In (ci, t) all_tables -> (find_arg ci t n = Some i <-> knows ci t n i).
Proof. intro H. apply find_arg_spec. apply nodupb_ok. exact (proj1 (forallb_forall _ _) tables_distinct _ H). Qed.

Lemma fits_make1 c x v : fits (Make c [x]) v -> exists u, v = VObj (s c) [u] /\ fits x u.
Proof. intros [us [-> H]]. destruct us as [|u [|]]; try (destruct H as [? []]); try destruct H. eauto. Qed.
Lemma fits_make2 c x y v : fits (Make c [x; y]) v -> exists u w, v = VObj (s c) [u; w] /\ fits x u /\ fits y w.
Proof. intros [us [-> H]]. destruct us as [|u [|w [|]]]; try (destruct H as [? [? []]]); try (destruct H as [? []]); try destruct H. eauto 6. Qed.
Lemma fits_tuple2 x y v : fits (Tuple [x; y]) v -> exists u w, v = VTuple [u; w] /\ fits x u /\ fits y w.
Proof. intros [us [-> H]]. destruct us as [|u [|w [|]]]; try (destruct H as [? [? []]]); try (destruct H as [? []]); try destruct H. eauto 6. Qed.
Lemma fits_name c v : fits (P_Types.a c) v -> exists n, v = word (s c) n.
Proof. intro H. apply fits_make1 in H. destruct H as [u [-> [n [-> _]]]]. now exists n. Qed.

Section Judging.
Variable read : symbol -> str -> option (val * list vcomplaint).

Lemma judge_pair ci t p c n given r ns : In (ci, t) all_tables -> given = VNone \/ (exists w, given = VStr w) ->
  (process_pair read ci t p (word c n) given = (VObj (s "Parametrized") [word c n; r], ns) <-> judged read ci t p c n given r ns).
Proof.
  intros T G. assert (U : forall i j, knows ci t n i -> knows ci t n j -> i = j).
  { intros i j Hi Hj. apply (find_arg_knows n i T) in Hi. apply (find_arg_knows n j T) in Hj. congruence. }
  assert (F : match find_arg ci t n with Some i => knows ci t n i | None => forall i, ~ knows ci t n i end).
  { destruct (find_arg ci t n) as [i|] eqn:E; [now apply (find_arg_knows n i T)|]. intros i K. apply (find_arg_knows n i T) in K. congruence. }
  unfold process_pair. change (text_of (word c n)) with n. unfold parametrized. split.
  - intro H. destruct (find_arg ci t n) as [i|].
    + destruct G as [->|[w ->]].
      * destruct (ak_argument i) as [[]|] eqn:A; injection H as <- <-;
          first [apply jd_missing with i; assumption|apply jd_none; intros j J; rewrite (U _ _ J F), A; discriminate].
      * assert (X : ak_argument i = Some ArgNo \/ ak_argument i <> Some ArgNo) by (destruct (ak_argument i) as [[]|]; auto; right; discriminate).
        destruct X as [X|X].
        -- rewrite X in H. injection H as <- <-. now apply jd_forbidden with i.
        -- assert (H' : match ak_syntax i with
            | Some x => match read x (text_of (VStr w)) with
              | Some (v, cs) => (VObj (s "Parametrized") [word c n; v], map (placed p [(s "name", AVal (word c n)); (s "value", AVal (VStr w))]) cs)
              | None => (VObj (s "Parametrized") [word c n; VUnavailable (VBytes (text_of (VStr w)))], [(1158%N, [error_arg; (s "place", AEntry p); (s "name", AVal (word c n)); (s "value", AVal (VStr w))])])
              end
            | None => (VObj (s "Parametrized") [word c n; VStr w], []) end = (VObj (s "Parametrized") [word c n; r], ns)) by (destruct (ak_argument i) as [[]|]; [congruence|exact H|exact H|exact H]).
           clear H. cbn [text_of] in H'. destruct (ak_syntax i) as [x|] eqn:S.
           ++ destruct (read x w) as [[v cs]|] eqn:R; injection H' as <- <-; [now apply jd_parsed with i x|now apply jd_malformed with i x].
           ++ injection H' as <- <-. apply jd_free. intros j J. rewrite (U _ _ J F). auto.
    + destruct G as [->|[w ->]]; injection H as <- <-; [apply jd_none|apply jd_free]; intros j J; destruct (F _ J).
  - intro J. destruct J as [i K A|A|i w K A|i w x v cs K A S R|i w x K A S R|w A];
      try (assert (E : find_arg ci t n = Some i) by (now apply (find_arg_knows n i T)); rewrite E); cbn [text_of].
    + now rewrite A.
    + destruct (find_arg ci t n) as [i|]; [|reflexivity]. specialize (A _ F). destruct (ak_argument i) as [[]|] eqn:Q; first [reflexivity|congruence].
    + now rewrite A.
    + rewrite S, R. destruct (ak_argument i) as [[]|] eqn:Q; first [reflexivity|congruence].
    + rewrite S, R. destruct (ak_argument i) as [[]|] eqn:Q; first [reflexivity|congruence].
    + destruct (find_arg ci t n) as [i|]; [|reflexivity]. destruct (A _ F) as [A1 A2]. rewrite A2. destruct (ak_argument i) as [[]|] eqn:Q; first [reflexivity|congruence].
Qed.

(** Every argument is judged in some way. *)
Lemma process_pair_shape ci t p name a : exists r ns, process_pair read ci t p name a = (VObj (s "Parametrized") [name; r], ns).
Proof.
  unfold process_pair, parametrized. destruct a; repeat match goal with |- context [match ?x with _ => _ end] => destruct x end; eauto.
Qed.
Lemma judge_total ci t p c n given : In (ci, t) all_tables -> given = VNone \/ (exists w, given = VStr w) ->
  exists r ns, process_pair read ci t p (word c n) given = (pair_of c n r, ns) /\ judged read ci t p c n given r ns.
Proof.
  intros T G. destruct (process_pair_shape ci t p (word c n) given) as [r [ns E]]. exists r, ns. split; [exact E|]. now apply judge_pair.
Qed.

Lemma each_one_by_one (f : val -> val * list notice) (P : val -> Prop) (R : val -> val -> list notice -> Prop) l :
  (forall a, P a -> R a (fst (f a)) (snd (f a))) -> Forall P l -> one_by_one R l (fst (Header.each f l)) (snd (Header.each f l)).
Proof.
  intros H F. induction F as [|a l Pa F IH]; [constructor|]. cbn [Header.each]. specialize (H a Pa). destruct (f a) as [b ns], (Header.each f l) as [l' ns']. cbn [fst snd] in *. now constructor.
Qed.

Lemma arguments_judged ci t p c (sh : shape) a : In (ci, t) all_tables ->
  (forall v, fits sh v -> v = VNone \/ exists w, v = VStr w) ->
  (fits (argument c sh) a \/ fits (Tuple [P_Types.a c; sh]) a) ->
  judged_pair read ci t p a (fst (process_arguments read ci t p a)) (snd (process_arguments read ci t p a)).
Proof.
  intros T S H.
  assert (X : exists n given, (a = pair_of (s c) n given \/ a = VTuple [word (s c) n; given]) /\ (given = VNone \/ exists w, given = VStr w)).
  { destruct H as [H|H]; [apply fits_make2 in H|apply fits_tuple2 in H]; destruct H as [u [given [-> [Hn Hg]]]]; apply fits_name in Hn; destruct Hn as [n ->];
      exists n, given; (split; [auto|apply S; exact Hg]). }
  destruct X as [n [given [E G]]]. destruct (judge_total p (s c) n T G) as [r [ns [E2 J]]].
  assert (E3 : process_arguments read ci t p a = (pair_of (s c) n r, ns)).
  { unfold process_arguments. destruct E as [->| ->].
    - cbn [unpack2 pair_of]. rewrite (proj2 (str_eqb_eq _ _) eq_refl). exact E2.
    - exact E2. }
  rewrite E3. exists (s c), n, given, r. auto.
Qed.

Lemma directive_judged p a : fits (argument "CacheDirective" (Nothing or Tuple [Word "token" or Word "quoted-string"; Text])) a ->
  judged_directive read p a (fst (process_directive read p a)) (snd (process_directive read p a)).
Proof.
  intro H. apply fits_make2 in H. destruct H as [x [y [-> [Hx Hy]]]]. apply fits_name in Hx. destruct Hx as [n ->]. unfold process_directive.
  assert (UP : unpack2 (VObj (s "Parametrized") [word (s "CacheDirective") n; y]) = Some (word (s "CacheDirective") n, y)) by reflexivity.
  rewrite UP. clear UP.
  destruct Hy as [->|[Hy|[]]].
  - destruct (@judge_total true cache_directive_table p (s "CacheDirective") n VNone) as [r [ns [E J]]]; [now left|now left|]. rewrite E.
    exists (s "CacheDirective"), n, r. split; [reflexivity|]. left. split; [reflexivity|exact J].
  - apply fits_tuple2 in Hy. destruct Hy as [z1 [z2 [-> [Hf [w ->]]]]].
    assert (FORM : exists form, z1 = VStr (s form) /\ (form = "token"%string \/ form = "quoted-string"%string)) by (destruct Hf as [->|[->|[]]]; eauto).
    destruct FORM as [form [-> FORM]].
    destruct (@judge_total true cache_directive_table p (s "CacheDirective") n (VStr w)) as [r [ns [E J]]]; [now left|right; eauto|]. rewrite E.
    assert (U : forall i j, knows true cache_directive_table n i -> knows true cache_directive_table n j -> i = j).
    { intros i j Hi Hj. apply (find_arg_knows n i (or_introl eq_refl)) in Hi. apply (find_arg_knows n j (or_introl eq_refl)) in Hj. congruence. }
    change (text_of (word (s "CacheDirective") n)) with n.
    assert (F : match find_arg true cache_directive_table n with Some i => knows true cache_directive_table n i | None => forall i, ~ knows true cache_directive_table n i end).
    { destruct (find_arg true cache_directive_table n) as [i|] eqn:E0; [now apply (find_arg_knows n i (or_introl eq_refl))|].
      intros i K. apply (find_arg_knows n i (or_introl eq_refl)) in K. congruence. }
    exists (s "CacheDirective"), n, r. split; [reflexivity|]. right.
    set (wrong := match match find_arg true cache_directive_table n with Some i => ak_form i | None => None end with
      | Some FormToken => if str_eqb (s form) (s "token") then [] else [(1155%N, [(s "directive", AVal (word (s "CacheDirective") n))])]
      | Some FormQuotedString => if str_eqb (s form) (s "quoted-string") then [] else [(1154%N, [(s "directive", AVal (word (s "CacheDirective") n))])]
      | None => [] end).
    exists form, w, wrong, ns. split; [reflexivity|]. split; [|split; [exact J|reflexivity]].
    unfold wrong. clear wrong E J.
    assert (NO : forall f, (forall i, ~ knows true cache_directive_table n i) \/ (exists i, knows true cache_directive_table n i /\ ak_form i <> Some f) -> forall i, knows true cache_directive_table n i -> ak_form i <> Some f).
    { intros f [N|[j [Kj Nf]]] i K; [destruct (N _ K)|]. now rewrite (U _ _ K Kj). }
    destruct (find_arg true cache_directive_table n) as [i|].
    + destruct (ak_form i) as [[]|] eqn:A; destruct FORM as [->| ->].
      * apply wf_right_token, NO. right. exists i. split; [exact F|rewrite A; discriminate].
      * now apply wf_token with i.
      * now apply wf_quoted with i.
      * apply wf_right_quoted, NO. right. exists i. split; [exact F|rewrite A; discriminate].
      * apply wf_right_token, NO. right. exists i. split; [exact F|rewrite A; discriminate].
      * apply wf_right_quoted, NO. right. exists i. split; [exact F|rewrite A; discriminate].
    + destruct FORM as [->| ->]; [apply wf_right_token|apply wf_right_quoted]; apply NO; now left.
Qed.
End Judging.

(** ** C66, for whole headers *)

Lemma key_syntax key i : known_as i (s key) -> header_of (s key) = Some i.
Proof. apply known_as_iff. Qed.

Lemma value_fits read i x sh w v cs : In i header_table -> hk_syntax i = Some x -> shape_of (hk_key i) = Some sh -> parses_http read -> read x w = Some (v, cs) -> fits sh v.
Proof.
  intros I X S P R. pose proof (proj1 (forallb_forall _ _) headers_checked i I) as C. unfold header_checked in C. rewrite X, S in C.
  pose proof (http_typed P R) as H. apply hasu_iff in H. destruct H as [t [It Ht]]. eapply inside_ok; [|exact Ht]. exact (proj1 (forallb_forall _ _) C t It).
Qed.

Definition special_keys : list (string * special) :=
  [("Cache-Control", CacheControlView); ("Strict-Transport-Security", StrictTransportSecurityView); ("Alt-Svc", AltSvcView);
   ("Prefer", PreferView); ("Preference-Applied", PreferenceAppliedView); ("Forwarded", ForwardedView)]%string.
Definition special_row (kc : string * special) : bool :=
  existsb (fun i => str_eqb (hk_key i) (s (fst kc)) && match hk_syntax i with Some _ => true | None => false end) header_table &&
  match find_special special_cases (s (fst kc)) with Some c => match c, snd kc with
    | CacheControlView, CacheControlView | StrictTransportSecurityView, StrictTransportSecurityView | AltSvcView, AltSvcView
    | PreferView, PreferView | PreferenceAppliedView, PreferenceAppliedView | ForwardedView, ForwardedView => true | _, _ => false end | None => false end.
Lemma special_rows : forallb special_row special_keys = true.
Proof. vm_compute. reflexivity. Qed.
Lemma special_known key c : In (key, c) special_keys -> find_special special_cases (s key) = Some c /\
  exists i x, In i header_table /\ hk_key i = s key /\ hk_syntax i = Some x /\ header_of (s key) = Some i.
Proof.
  intro H. pose proof (proj1 (forallb_forall _ _) special_rows _ H) as R. unfold special_row in R. cbn [fst snd] in R. apply andb_true_iff in R. destruct R as [R1 R2]. split.
  - destruct (find_special special_cases (s key)) as [d|]; [|discriminate R2]. destruct d, c; try discriminate R2; reflexivity.
  - apply existsb_exists in R1. destruct R1 as [i [I R1]]. apply andb_true_iff in R1. destruct R1 as [R1 R3]. apply str_eqb_eq in R1. destruct (hk_syntax i) as [x|] eqn:X; [|discriminate R3].
    exists i, x. split; [exact I|]. split; [exact R1|]. split; [exact X|]. apply known_as_iff. split; [exact I|]. rewrite R1. now apply same_name_lower.
Qed.
Lemma special_class key c name : In (key, c) special_keys -> P_Header.same_name name (s key) -> class_of name = Some (SpecialView c).
Proof.
  intros H N. destruct (special_known H) as [F _]. apply same_name_lower in N. destruct (class_of_total name) as [d D]. rewrite D. f_equal.
  pose proof (class_of_same N) as S. rewrite D in S. unfold class_of in S. rewrite F in S. destruct (rule_for (s key)) as [[]|]; try discriminate S. now injection S.
Qed.

Lemma text_or_nothing v : fits (Text or Nothing) v -> v = VNone \/ exists w, v = VStr w.
Proof. intros [[w ->]|[->|[]]]; eauto. Qed.
Lemma text_only v : fits Text v -> v = VNone \/ exists w, v = VStr w.
Proof. intros [w ->]. eauto. Qed.

Section Entry.
Variable read : symbol -> str -> option (val * list vcomplaint).

Definition raw_shape (c : special) : shape :=
  match c with
  | CacheControlView => Many (argument "CacheDirective" (Nothing or Tuple [Word "token" or Word "quoted-string"; Text]))
  | StrictTransportSecurityView => Many (argument "HSTSDirective" (Text or Nothing))
  | AltSvcView => Word "clear" or Many (parametrized_by (Tuple [Octets; Unread or Name]) (params (P_Types.a "AltSvcParam") Text))
  | PreferView => Many (parametrized_by (argument "Preference" (Text or Nothing)) (Many (Nothing or parametrized_by ci (Text or Nothing))))
  | PreferenceAppliedView => Many (argument "Preference" (Text or Nothing))
  | ForwardedView => Many (Many (Tuple [P_Types.a "ForwardedParam"; Text]))
  end.
Lemma raw_shapes : forall key c, In (key, c) special_keys -> shape_of (s key) = Some (raw_shape c).
Proof.
  intros key c H. cbn [special_keys In] in H. repeat (destruct H as [H|H]; [injection H as <- <-; vm_compute; reflexivity|]). destruct H.
Qed.

Lemma each_of_list f l : each_of f (VList l) = (VList (fst (Header.each f l)), snd (Header.each f l)).
Proof. cbn [each_of]. now destruct (Header.each f l). Qed.

Lemma alternative_judged p a : fits (parametrized_by (Tuple [Octets; Unread or Name]) (params (P_Types.a "AltSvcParam") Text)) a ->
  exists item x y, a = VObj (s "Parametrized") [item; VObj (s "MultiDict") [VList x]] /\
      fst (process_alternative read p a) = VObj (s "Parametrized") [item; VObj (s "MultiDict") [VList y]] /\
      one_by_one (judged_pair read false alt_svc_param_table p) x y (snd (process_alternative read p a)).
Proof.
  intro H. apply fits_make2 in H. destruct H as [item [ps [-> [_ H]]]]. apply fits_make1 in H. destruct H as [u [-> [l [-> H]]]].
  unfold process_alternative.
  pose proof (@each_one_by_one (process_arguments read false alt_svc_param_table p) _ (judged_pair read false alt_svc_param_table p) l
    (fun a Ha => @arguments_judged read false alt_svc_param_table p "AltSvcParam" Text a ltac:(cbn; tauto) text_only (or_intror Ha)) H) as O.
  destruct (Header.each (process_arguments read false alt_svc_param_table p) l) as [y ns]. cbn [fst snd] in *. exists item, l, y. auto.
Qed.
Lemma preference_judged p a : fits (parametrized_by (argument "Preference" (Text or Nothing)) (Many (Nothing or parametrized_by ci (Text or Nothing)))) a ->
  exists x y ps, a = VObj (s "Parametrized") [x; ps] /\ fst (process_preference read p a) = VObj (s "Parametrized") [y; ps] /\
      judged_pair read true preference_table p x y (snd (process_preference read p a)).
Proof.
  intro H. apply fits_make2 in H. destruct H as [x [ps [-> [H _]]]]. unfold process_preference.
  assert (UP : unpack2 (VObj (s "Parametrized") [x; ps]) = Some (x, ps)) by reflexivity. rewrite UP. clear UP.
  pose proof (@arguments_judged read true preference_table p "Preference" (Text or Nothing) x ltac:(cbn; tauto) text_or_nothing (or_introl H)) as J.
  destruct (process_arguments read true preference_table p x) as [y ns]. cbn [fst snd] in *. exists x, y, ps. auto.
Qed.
Lemma check_elements_ids p l : Forall (fun n => fst n = 1296%N \/ fst n = 1297%N) (check_elements p l).
Proof.
  unfold check_elements. apply Forall_app. split.
  - apply Forall_forall. intros n I. apply in_flat_map in I. destruct I as [el [_ I]]. apply in_map_iff in I. destruct I as [nm [<- _]]. now left.
  - repeat match goal with |- context [match ?x with _ => _ end] => destruct x end; first [constructor; [now right|constructor]|constructor].
Qed.
Lemma delims_ids name p v : Forall (fun n => fst n = 1299%N \/ fst n = 1300%N) (check_quoted_delims name p v).
Proof.
  apply Forall_forall. intros n I. unfold check_quoted_delims in I. apply in_flat_map in I. destruct I as [x [_ I]]. rewrite in_app_iff in I.
  destruct (flag_of hk_quoted_comma_bad name && existsb (N.eqb 44) x), (flag_of hk_quoted_semicolon_bad name && existsb (N.eqb 59) x); cbn in I;
    repeat match goal with H : _ \/ _ |- _ => destruct H end; subst; try contradiction; auto.
Qed.

Lemma special_processed key c p v : In (key, c) special_keys -> fits (raw_shape c) v ->
  processed read p key v (fst (process_parsed read (SpecialView c) p v)) (snd (process_parsed read (SpecialView c) p v)).
Proof.
  intros H F. assert (T : forall x, In x all_tables <-> In x all_tables) by tauto. cbn [special_keys In] in H.
  repeat (destruct H as [H|H]; [injection H as <- <-; cbn [raw_shape] in F; cbn [process_parsed]|]); [| | | | | |destruct H].
  - destruct F as [l [-> F]]. rewrite each_of_list. constructor. eapply each_one_by_one; [|exact F]. intros a Ha. now apply directive_judged.
  - destruct F as [l [-> F]]. rewrite each_of_list. constructor. eapply each_one_by_one; [|exact F].
    intros a Ha. apply arguments_judged with "HSTSDirective"%string (Text or Nothing); [cbn; tauto|exact text_or_nothing|now left].
  - destruct F as [F|[[l [-> F]]|[]]].
    + cbn [fits] in F. subst v. rewrite (proj2 (str_eqb_eq (s "clear") (s "clear")) eq_refl). constructor.
    + rewrite each_of_list. constructor. eapply each_one_by_one; [|exact F]. intros a Ha. now apply alternative_judged.
  - destruct F as [l [-> F]]. rewrite each_of_list. constructor. eapply each_one_by_one; [|exact F]. intros a Ha. now apply preference_judged.
  - destruct F as [l [-> F]]. rewrite each_of_list. constructor. eapply each_one_by_one; [|exact F].
    intros a Ha. apply arguments_judged with "Preference"%string (Text or Nothing); [cbn; tauto|exact text_or_nothing|now left].
  - destruct F as [l [-> F]]. rewrite each_of_list. cbn [fst snd]. constructor; [|apply check_elements_ids]. eapply each_one_by_one; [|exact F].
    intros a [x [-> Fx]]. rewrite each_of_list. cbn [fst snd]. eexists _, _. split; [reflexivity|]. split; [reflexivity|]. eapply each_one_by_one; [|exact Fx].
    intros b Hb. apply arguments_judged with "ForwardedParam"%string Text; [cbn; tauto|exact text_only|now right].
Qed.

Lemma raw_not_unavailable c v : fits (raw_shape c) v -> is_unavailable v = false.
Proof. destruct c; cbn [raw_shape]; intro F; try (destruct F as [l [-> _]]; reflexivity). destruct F as [->|[[l [-> _]]|[]]]; reflexivity. Qed.

Lemma special_entry key c name p e : parses_http read -> In (key, c) special_keys -> P_Header.same_name name (s key) ->
  entry_gives read key p (e_value e) (fst (read_entry read (SpecialView c) name p e)) (snd (read_entry read (SpecialView c) name p e)).
Proof.
  intros P H N. destruct (special_known H) as [_ [i [x [I [K [X Hd]]]]]]. unfold read_entry, syntax_for.
  rewrite (header_of_same (proj1 (same_name_lower _ _) N)), Hd, X. destruct (read x (e_value e)) as [[v cs]|] eqn:R.
  - assert (F : fits (raw_shape c) v) by (eapply value_fits; [exact I|exact X|rewrite K; now apply raw_shapes|exact P|exact R]).
    rewrite (raw_not_unavailable F). pose proof (special_processed p H F) as Q. destruct (process_parsed read (SpecialView c) p v) as [v' ns]. cbn [fst snd] in *.
    eapply eg_parsed; [apply known_as_iff; exact Hd|exact X|exact R|exact Q|apply delims_ids].
  - cbn [fst snd]. apply eg_malformed with i x; [now apply known_as_iff|exact X|exact R].
Qed.
End Entry.

Lemma combine_ids c name es vs : Forall (fun n => fst n = 1013%N) (snd (combine_entries c name es vs)).
Proof.
  assert (S : Forall (fun n => fst n = 1013%N) (snd (parse_single name es vs))).
  { unfold parse_single. destruct (rev es), (rev vs); cbn [snd]; try constructor. destruct (Nat.ltb _ _); repeat constructor. }
  assert (M : Forall (fun n => fst n = 1013%N) (snd (parse_multi name es vs))).
  { unfold parse_multi. destruct (filter _ vs); cbn [snd]; [constructor|]. destruct (_ && _); repeat constructor. }
  destruct c as [| | |[]]; cbn [combine_entries]; try assumption. constructor.
Qed.

(** C66.  Each entry of such a header gives a value and notices as specified;
    the value of the view is that of the last entry (for
    Strict-Transport-Security), that of the only entry if it is not a list
    ([Alt-Svc: clear]), or else all elements in order. *)
Theorem C66_arguments : forall read m key c name us v, parses_http read -> In (key, c) special_keys -> P_Header.same_name name (s key) ->
  all_usable m name us -> view_is read m name v ->
  exists vs nss,
    Forall2 (fun x r => entry_gives read key (fst x) (e_value (snd x)) (fst r) (snd r)) us (combine vs nss) /\ List.length vs = List.length nss /\
    (key = "Strict-Transport-Security"%string -> v_value v = last vs VNone) /\
    (key <> "Strict-Transport-Security"%string ->
       (forall ls, Forall2 contributes vs ls -> v_value v = VList (List.concat ls)) /\
       (forall w, vs = [w] -> (forall l, ~ contributes w l) -> v_value v = w)) /\
    (forall n ns, In ns nss -> In n ns -> In n (v_notices v)) /\
    (forall n, In n (v_notices v) -> (exists ns, In ns nss /\ In n ns) \/ fst n = 1013%N \/ fst n = 1026%N).
Proof.
  intros read m key c name us v P H N U V. apply view_is_iff in V. destruct V as [d [D ->]]. rewrite (special_class H N) in D. injection D as <-.
  assert (E : us = filter (kept name) (enumerate m name)) by (eapply all_usable_unique; [exact U|apply kept_usable]).
  unfold parse_view. rewrite pre_parse_eq, <- E.
  set (f := fun x : place * entry => read_entry read (SpecialView c) name (fst x) (snd x)).
  exists (map (fun x => fst (f x)) us), (map (fun x => snd (f x)) us).
  set (ns0 := flat_map _ (enumerate m name)).
  assert (NA : forall n ns, In ns (map (fun x => snd (f x)) us) -> In n ns -> In n ns0).
  { intros n ns I J. apply in_map_iff in I. destruct I as [x [<- I]]. apply in_flat_map. exists x. rewrite E in I. apply filter_In in I. destruct I as [I K]. split; [exact I|].
    rewrite K. exact J. }
  assert (NB : forall n, In n ns0 -> (exists ns, In ns (map (fun x => snd (f x)) us) /\ In n ns) \/ fst n = 1026%N).
  { intros n I. apply in_flat_map in I. destruct I as [x [I J]]. destruct (kept name x) eqn:K.
    - left. exists (snd (f x)). split; [|exact J]. apply (in_map (fun x => snd (f x))). rewrite E. apply filter_In. auto.
    - right. destruct J as [<-|[]]. reflexivity. }
  split; [|split; [|split; [|split; [|split]]]].
  - clear E U NA NB ns0. induction us as [|x us IH]; [constructor|]. cbn [map combine]. constructor; [|exact IH]. cbn [fst snd]. apply special_entry; assumption.
  - now rewrite !map_length.
  - intros ->. assert (C : c = StrictTransportSecurityView).
    { cbn [special_keys In] in H. repeat (destruct H as [H|H]; [injection H; intros; first [subst c; reflexivity|discriminate]|]). destruct H. }
    subst c. cbn [combine_entries]. unfold parse_single. rewrite <- map_rev. clear. induction us as [|x us _] using rev_ind; [reflexivity|].
    rewrite rev_unit. cbn [map v_value]. rewrite map_app. cbn [map]. now rewrite last_last.
  - intro K. assert (C : combine_entries (SpecialView c) = parse_multi).
    { destruct c; try reflexivity. exfalso. cbn [special_keys In] in H. repeat (destruct H as [H|H]; [injection H; intros; congruence|]). destruct H. }
    rewrite C. split.
    + change (map (fun x : place * entry => fst (read_entry read (SpecialView c) name (fst x) (snd x))) us) with (map (fun x => fst (f x)) us).
      generalize (map (fun x => fst (f x)) us). intros vs ls Q. unfold parse_multi.
      assert (NF : filter (fun v => negb (is_list v || is_unavailable v)) vs = []) by (clear - Q; induction Q as [|w l vs ls X Q IH]; [reflexivity|]; cbn [filter]; destruct X; exact IH).
      rewrite NF. cbn [v_value]. f_equal. unfold extend. clear - Q. induction Q as [|w l vs ls X Q IH]; [reflexivity|]. cbn. rewrite IH. destruct X; reflexivity.
    + intros w Q NC. destruct us as [|x [|]]; try discriminate Q. cbn [map] in Q |- *. injection Q as Q. unfold f in Q. rewrite Q.
      assert (G : negb (is_list w || is_unavailable w) = true) by (destruct w; try reflexivity; exfalso; eapply NC; constructor).
      unfold parse_multi. cbn [filter]. rewrite G. reflexivity.
  - intros n ns I J. pose proof (NA n ns I J) as G. destruct (combine_entries (SpecialView c) name us (map (fun x => fst (read_entry read (SpecialView c) name (fst x) (snd x))) us)) as [[es' w] ns']. cbn [v_notices]. apply in_app_iff. now left.
  - intros n I.
    assert (G : In n ns0 \/ fst n = 1013%N).
    { pose proof (combine_ids (SpecialView c) name us (map (fun x => fst (read_entry read (SpecialView c) name (fst x) (snd x))) us)) as Z.
      destruct (combine_entries (SpecialView c) name us (map (fun x => fst (read_entry read (SpecialView c) name (fst x) (snd x))) us)) as [[es' w] ns'].
      cbn [v_notices snd] in *. apply in_app_iff in I. destruct I as [I|I]; [now left|]. right. rewrite Forall_forall in Z. exact (Z n I). }
    destruct G as [G|G]; [|now right; left]. destruct (NB n G) as [X|X]; [now left|now right; right].
Qed.
Print Assumptions C66_arguments.

(** *** Looking up a directive *)

Definition directive_like (v : val) : Prop := (exists c n r, v = pair_of c n r) \/ (exists x, v = VUnavailable x).
(** What a lookup gives for an argument. *)
Definition answer (r : val) : val := match r with VNone => VBool true | _ => r end.

Lemma first_directive_spec key l : Forall (fun v => exists c n r, v = pair_of c n r) l ->
  (first_directive key l = VNone <-> ~ exists c n r, In (pair_of c n r) l /\ P_Header.same_name n key) /\
  (forall a c n r b, l = a ++ pair_of c n r :: b -> P_Header.same_name n key ->
     (forall c' n' r', In (pair_of c' n' r') a -> ~ P_Header.same_name n' key) -> first_directive key l = answer r).
Proof.
  induction 1 as [|v l [c [n [r ->]]] F IH].
  - split; [split; [intros _ [c [n [r [[] _]]]]|reflexivity]|]. intros a c n r b E. destruct a; discriminate.
  - destruct IH as [IH1 IH2]. cbn [first_directive].
    assert (UP : unpack2 (pair_of c n r) = Some (word c n, r)) by reflexivity. rewrite UP. change (text_of (word c n)) with n.
    destruct (ci_eq n key) eqn:E.
    + assert (SN : P_Header.same_name n key) by (apply same_name_lower, ci_eq_lower; exact E). split.
      * split; [destruct r; discriminate|]. intro H. exfalso. apply H. exists c, n, r. split; [now left|exact SN].
      * intros a c1 n1 r1 b Q S1 NO. destruct a as [|y a]; cbn in Q.
        -- assert (Q1 : pair_of c n r = pair_of c1 n1 r1) by (injection Q; congruence). injection Q1 as <- <- <-. reflexivity.
        -- assert (Q1 : pair_of c n r = y) by (injection Q; congruence). subst y. exfalso. eapply NO; [now left|exact SN].
    + assert (SN : ~ P_Header.same_name n key) by (intro S; apply same_name_lower, ci_eq_lower in S; congruence). split.
      * rewrite IH1. split; intros H G; apply H; destruct G as [c1 [n1 [r1 [I S1]]]].
        -- destruct I as [I|I]; [injection I as <- <- <-; tauto|eauto].
        -- exists c1, n1, r1. split; [now right|exact S1].
      * intros a c1 n1 r1 b Q S1 NO. destruct a as [|y a]; cbn in Q.
        -- assert (Q1 : pair_of c n r = pair_of c1 n1 r1) by (injection Q; congruence). injection Q1 as <- <- <-. tauto.
        -- assert (Q2 : l = a ++ pair_of c1 n1 r1 :: b) by (injection Q; congruence). eapply IH2; [exact Q2|exact S1|]. intros c' n' r' I. eapply NO. right. exact I.
Qed.

Lemma okay_directives l : Forall directive_like l ->
  Forall (fun v => exists c n r, v = pair_of c n r) (filter okay_value l) /\
  (forall c n r, In (pair_of c n r) (filter okay_value l) <-> In (pair_of c n r) l).
Proof.
  intro F. split.
  - apply Forall_forall. intros v I. apply filter_In in I. destruct I as [I O]. rewrite Forall_forall in F. destruct (F v I) as [H|[x ->]]; [exact H|discriminate].
  - intros c n r. rewrite filter_In. split; [tauto|]. intro I. split; [exact I|reflexivity].
Qed.

(** C66.  A lookup gives the argument of the first directive of that name, in any
    letter case; [True] if it has none; [None] if there is no such directive. *)
Theorem C66_lookup : forall v l key, v_value v = VList l -> Forall directive_like l ->
  (directive v key = VNone <-> ~ exists c n r, In (pair_of c n r) l /\ P_Header.same_name n key) /\
  (forall a c n r b, l = a ++ pair_of c n r :: b -> P_Header.same_name n key ->
     (forall c' n' r', In (pair_of c' n' r') a -> ~ P_Header.same_name n' key) -> directive v key = answer r).
Proof.
  intros v l key E F. unfold directive, iterate. rewrite E. destruct (okay_directives F) as [O1 O2]. destruct (first_directive_spec key O1) as [S1 S2]. split.
  - rewrite S1. split; intros H [c [n [r [I S]]]]; apply H; exists c, n, r; (split; [now apply O2|exact S]).
  - intros a c n r b -> SN NO. rewrite filter_app in *. cbn [filter okay_value pair_of] in *. eapply S2; [reflexivity|exact SN|].
    intros c' n' r' I. apply NO with c' r'. apply filter_In in I. tauto.
Qed.
Print Assumptions C66_lookup.

(** The same for Prefer, where each preference has parameters around it. *)
Definition preference_like (v : val) : Prop := (exists c n r ps, v = VObj (s "Parametrized") [pair_of c n r; ps]) \/ (exists x, v = VUnavailable x).
Theorem C66_preference : forall v l key, v_value v = VList l -> Forall preference_like l ->
  (preference v key = VNone <-> ~ exists c n r ps, In (VObj (s "Parametrized") [pair_of c n r; ps]) l /\ P_Header.same_name n key) /\
  (forall a c n r ps b, l = a ++ VObj (s "Parametrized") [pair_of c n r; ps] :: b -> P_Header.same_name n key ->
     (forall c' n' r' ps', In (VObj (s "Parametrized") [pair_of c' n' r'; ps']) a -> ~ P_Header.same_name n' key) -> preference v key = answer r).
Proof.
  intros v l key E F. unfold preference, iterate. rewrite E. set (g := fun d => match unpack2 d with Some (p, _) => p | None => VBad end).
  assert (G : forall x ps, g (VObj (s "Parametrized") [x; ps]) = x) by reflexivity.
  assert (L : Forall (fun v => exists c n r, v = pair_of c n r) (map g (filter okay_value l))).
  { apply Forall_forall. intros w I. apply in_map_iff in I. destruct I as [d [<- I]]. apply filter_In in I. destruct I as [I O]. rewrite Forall_forall in F.
    destruct (F d I) as [[c [n [r [ps ->]]]]|[x ->]]; [rewrite G; eauto|discriminate]. }
  assert (M : forall l0, Forall preference_like l0 -> forall c n r, In (pair_of c n r) (map g (filter okay_value l0)) <-> exists ps, In (VObj (s "Parametrized") [pair_of c n r; ps]) l0).
  { intros l0 F0 c n r. rewrite in_map_iff. split.
    - intros [d [Q I]]. apply filter_In in I. destruct I as [I O]. rewrite Forall_forall in F0. destruct (F0 d I) as [[c' [n' [r' [ps ->]]]]|[x ->]]; [|discriminate].
      rewrite G in Q. rewrite Q in I. now exists ps.
    - intros [ps I]. eexists. split; [apply G|]. apply filter_In. split; [exact I|reflexivity]. }
  destruct (first_directive_spec key L) as [S1 S2]. split.
  - rewrite S1. split; intro H.
    + intros [c [n [r [ps [I S]]]]]. apply H. exists c, n, r. split; [apply (M l F); eauto|exact S].
    + intros [c [n [r [I S]]]]. apply (M l F) in I. destruct I as [ps I]. apply H. eauto 8.
  - intros a c n r ps b -> SN NO. rewrite filter_app, map_app in *. cbn [filter okay_value map] in *. rewrite G in *. eapply S2; [reflexivity|exact SN|]. intros c' n' r' I. apply Forall_app in F. destruct F as [F1 _]. apply (M a F1) in I. destruct I as [ps' I]. eapply NO. exact I.
Qed.
Print Assumptions C66_preference.

(** ** C64 for arguments and for views *)

Local Open Scope string_scope.
(** The value of the argument of each directive whose arguments are parsed. *)
Definition argument_shapes : list (special * string * shape) := [
  (CacheControlView, "max-age", Whole);
  (CacheControlView, "max-stale", Whole);
  (CacheControlView, "min-fresh", Whole);
  (CacheControlView, "no-cache", Many (P_Types.a "FieldName"));
  (CacheControlView, "private", Many (P_Types.a "FieldName"));
  (CacheControlView, "s-maxage", Whole);
  (CacheControlView, "stale-if-error", Whole);
  (CacheControlView, "stale-while-revalidate", Whole);
  (StrictTransportSecurityView, "max-age", Whole);
  (AltSvcView, "ma", Whole);
  (AltSvcView, "persist", Truth);
  (PreferView, "handling", ci);
  (PreferView, "return", ci);
  (PreferView, "wait", Whole);
  (PreferenceAppliedView, "handling", ci);
  (PreferenceAppliedView, "return", ci);
  (PreferenceAppliedView, "wait", Whole);
  (ForwardedView, "by", Tuple [Name; Nothing or Name or Whole]);
  (ForwardedView, "for", Tuple [Name; Nothing or Name or Whole]);
  (ForwardedView, "host", Text);
  (ForwardedView, "proto", Name)].
Local Close Scope string_scope.
Definition table_of (c : special) : list arg_info :=
  match c with
  | CacheControlView => cache_directive_table
  | StrictTransportSecurityView => hsts_directive_table
  | AltSvcView => alt_svc_param_table
  | PreferView | PreferenceAppliedView => preference_table
  | ForwardedView => forwarded_param_table
  end.
Definition special_eqb (a b : special) : bool :=
  match a, b with
  | CacheControlView, CacheControlView | StrictTransportSecurityView, StrictTransportSecurityView | AltSvcView, AltSvcView
  | PreferView, PreferView | PreferenceAppliedView, PreferenceAppliedView | ForwardedView, ForwardedView => true
  | _, _ => false
  end.
Lemma special_eqb_eq a b : special_eqb a b = true -> a = b.
Proof. destruct a, b; try discriminate; reflexivity. Qed.
Definition argument_checked (c : special) (i : arg_info) : bool :=
  match ak_syntax i with
  | None => true
  | Some x => existsb (fun r => special_eqb (fst (fst r)) c && str_eqb (s (snd (fst r))) (ak_key i) && forallb (inside (snd r)) (infer nested_ty rec_ty x)) argument_shapes
  end.
Lemma arguments_checked : forallb (fun c => forallb (argument_checked c) (table_of c)) [CacheControlView; StrictTransportSecurityView; AltSvcView; PreferView; PreferenceAppliedView; ForwardedView] = true.
Proof. vm_compute. reflexivity. Qed.

Theorem C64_arguments : forall c i x, In i (table_of c) -> ak_syntax i = Some x ->
  exists name sh, In (c, name, sh) argument_shapes /\ ak_key i = s name /\
  forall read w v cs, parses_http read -> read x w = Some (v, cs) -> fits sh v.
Proof.
  intros c i x I X. assert (C : argument_checked c i = true).
  { pose proof (proj1 (forallb_forall _ _) arguments_checked c) as A. assert (Ic : In c [CacheControlView; StrictTransportSecurityView; AltSvcView; PreferView; PreferenceAppliedView; ForwardedView]) by (destruct c; cbn; tauto).
    exact (proj1 (forallb_forall _ _) (A Ic) i I). }
  unfold argument_checked in C. rewrite X in C. apply existsb_exists in C. destruct C as [[[c' name] sh] [Ir C]]. cbn [fst snd] in C. apply andb_true_iff in C. destruct C as [C C3]. apply andb_true_iff in C. destruct C as [C1 C2].
  apply special_eqb_eq in C1. subst c'. apply str_eqb_eq in C2. exists name, sh. split; [exact Ir|]. split; [now symmetry|].
  intros read w v cs P R. pose proof (http_typed P R) as H. apply hasu_iff in H. destruct H as [t [It Ht]]. eapply inside_ok; [|exact Ht]. exact (proj1 (forallb_forall _ _) C3 t It).
Qed.
Print Assumptions C64_arguments.

(** The shape of a view: of a header that occurs once, the value of the entry,
    or [Unavailable] if it is malformed, or [None] if there is none; of a
    header that may occur several times, the elements of all entries, with
    [Unavailable] for malformed ones. *)
Fixpoint alternatives (x : shape) : list shape :=
  match x with OneOf l => flat_map alternatives l | _ => [x] end.
Definition shown_list (x : shape) : shape :=
  OneOf (Many (OneOf (Unread :: flat_map (fun y => match y with Many z | Many1 z => [z] | _ => [] end) (alternatives x))) ::
         filter (fun y => match y with Many _ | Many1 _ => false | _ => true end) (alternatives x)).
Definition shown_one (x : shape) : shape := OneOf [x; Unread; Nothing].
(** Arguments after judging. *)
Definition argument_value (c : special) : shape :=
  OneOf (Nothing :: Unread :: Text :: map snd (filter (fun r => special_eqb (fst (fst r)) c) argument_shapes)).
Definition made_of (c : special) : shape :=
  match c with
  | CacheControlView => Many (argument "CacheDirective" (argument_value c))
  | StrictTransportSecurityView => Many (argument "HSTSDirective" (argument_value c))
  | AltSvcView => Word "clear" or Many (parametrized_by (Tuple [Octets; Unread or Name]) (Make "MultiDict" [Many (argument "AltSvcParam" (argument_value c))]))
  | PreferView => Many (parametrized_by (argument "Preference" (argument_value c)) (Many (Nothing or parametrized_by ci (Text or Nothing))))
  | PreferenceAppliedView => Many (argument "Preference" (argument_value c))
  | ForwardedView => Many (Many (argument "ForwardedParam" (argument_value c)))
  end.
Definition view_shape (name : string) (x : shape) : shape :=
  match class_of (s name) with
  | Some SingleView => shown_one x
  | Some (SpecialView StrictTransportSecurityView) => shown_one (made_of StrictTransportSecurityView)
  | Some (SpecialView c) => shown_list (made_of c)
  | _ => shown_list x
  end.

Lemma one_of_in (l : list shape) v : fits (OneOf l) v <-> exists y, In y l /\ fits y v.
Proof.
  cbn [fits]. induction l as [|x l IH]; cbn [map one_of fold_right].
  - split; [intros []|intros [y [[] _]]].
  - fold (one_of (map (fun y => fits y v) l)). rewrite IH. split.
    + intros [H|[y [I H]]]; [exists x; split; [now left|exact H]|exists y; split; [now right|exact H]].
    + intros [y [[->|I] H]]; [now left|right; eauto].
Qed.
Lemma alternatives_fits x : forall v, fits x v <-> exists y, In y (alternatives x) /\ fits y v.
Proof.
  induction x as [x B|l IH|x IH|x IH|l IH|c l IH] using shape_ind'; intro v; try (cbn [alternatives]; split; [intro H; eexists; split; [now left|exact H]|intros [y [[<-|[]] H]]; exact H]).
  - destruct x; try discriminate B; cbn [alternatives]; (split; [intro H; eexists; split; [now left|exact H]|intros [y [[<-|[]] H]]; exact H]).
  - rewrite one_of_in. cbn [alternatives]. split.
    + intros [y [I H]]. rewrite Forall_forall in IH. apply (IH y I) in H. destruct H as [z [Iz H]]. exists z. split; [|exact H]. apply in_flat_map. eauto.
    + intros [z [I H]]. apply in_flat_map in I. destruct I as [y [Iy Iz]]. exists y. split; [exact Iy|]. rewrite Forall_forall in IH. apply (IH y Iy). eauto.
Qed.

Opaque argument_shapes.
Lemma judged_fits read ci c p cc n given r ns : parses_http read -> judged read ci (table_of c) p cc n given r ns -> fits (argument_value c) r.
Proof.
  intros P J. unfold argument_value. apply one_of_in.
  destruct J as [i K A|A|i w K A|i w x v cs K A S R|i w x K A S R|w A].
  - exists Unread. split; [right; left; reflexivity|eexists; reflexivity].
  - exists Nothing. split; [left; reflexivity|reflexivity].
  - exists Unread. split; [right; left; reflexivity|eexists; reflexivity].
  - destruct (C64_arguments (proj1 K) S) as [nm [sh [I [_ Fi]]]]. exists sh. split; [|exact (Fi read w v cs P R)].
    right; right; right. apply in_map_iff. exists (c, nm, sh). split; [reflexivity|]. apply filter_In. split; [exact I|]. cbn [fst]. destruct c; reflexivity.
  - exists Unread. split; [right; left; reflexivity|eexists; reflexivity].
  - exists Text. split; [right; right; left; reflexivity|eexists; reflexivity].
Qed.

Lemma each_forall (f : val -> val * list notice) (P Q : val -> Prop) l : (forall a, P a -> Q (fst (f a))) -> Forall P l -> Forall Q (fst (Header.each f l)).
Proof.
  intros H F. induction F as [|a l Pa F IH]; [constructor|]. cbn [Header.each]. specialize (H a Pa). destruct (f a) as [b ns], (Header.each f l) as [l' ns']. cbn [fst] in *. now constructor.
Qed.
Lemma make2_fits c x y u w : fits x u -> fits y w -> fits (Make c [x; y]) (VObj (s c) [u; w]).
Proof. intros A B. exists [u; w]. split; [reflexivity|]. split; [exact A|]. split; [exact B|exact I]. Qed.
Lemma make1_fits c x u : fits x u -> fits (Make c [x]) (VObj (s c) [u]).
Proof. intros A. exists [u]. split; [reflexivity|]. split; [exact A|exact I]. Qed.

Lemma name_word c v : fits (P_Types.a c) v -> exists n, v = word (s c) n /\ n <> [].
Proof. intro H. apply fits_make1 in H. destruct H as [u [-> [n [-> N]]]]. now exists n. Qed.
Lemma word_name c n : n <> [] -> fits (P_Types.a c) (word (s c) n).
Proof. intro N. apply make1_fits. exists n. auto. Qed.

Lemma arguments_fit read ci sp p c (sh : shape) a : parses_http read -> In (ci, table_of sp) all_tables ->
  (forall v, fits sh v -> v = VNone \/ exists w, v = VStr w) ->
  (fits (argument c sh) a \/ fits (Tuple [P_Types.a c; sh]) a) ->
  fits (argument c (argument_value sp)) (fst (process_arguments read ci (table_of sp) p a)).
Proof.
  intros P T S H.
  assert (X : exists n given, n <> [] /\ unpack2 a = Some (word (s c) n, given) /\ (given = VNone \/ exists w, given = VStr w)).
  { destruct H as [H|H]; [apply fits_make2 in H|apply fits_tuple2 in H]; destruct H as [u [given [-> [Hn Hg]]]]; apply name_word in Hn; destruct Hn as [n [-> N]];
      exists n, given; (split; [exact N|]); (split; [reflexivity|apply S; exact Hg]). }
  destruct X as [n [given [N [U G]]]]. unfold process_arguments. rewrite U. destruct (judge_total read p (s c) n T G) as [r [ns [E J]]]. rewrite E. cbn [fst].
  apply make2_fits; [now apply word_name|]. eapply judged_fits; [exact P|exact J].
Qed.
Lemma directive_fit read p a : parses_http read -> fits (argument "CacheDirective" (Nothing or Tuple [Word "token" or Word "quoted-string"; Text])) a ->
  fits (argument "CacheDirective" (argument_value CacheControlView)) (fst (process_directive read p a)).
Proof.
  intros P H. pose proof (directive_judged read p H) as J. apply fits_make2 in H. destruct H as [x [y [-> [Hx _]]]]. apply name_word in Hx. destruct Hx as [n [-> N]].
  destruct J as [c [n' [r [-> J]]]]. assert (E : c = s "CacheDirective" /\ n' = n /\ fits (argument_value CacheControlView) r).
  { destruct J as [[E J]|[form [w [ns1 [ns2 [E [_ [J _]]]]]]]].
    - assert (E1 : word (s "CacheDirective") n = word c n') by (injection E; congruence). injection E1 as -> ->. split; [reflexivity|]. split; [reflexivity|].
      exact (@judged_fits read true CacheControlView p _ _ _ _ _ P J).
    - assert (E1 : word (s "CacheDirective") n = word c n') by (injection E; congruence). injection E1 as -> ->. split; [reflexivity|]. split; [reflexivity|].
      exact (@judged_fits read true CacheControlView p _ _ _ _ _ P J). }
  destruct E as [-> [-> F]]. apply make2_fits; [now apply word_name|exact F].
Qed.

Lemma special_fits read c p v : parses_http read -> fits (raw_shape c) v -> fits (made_of c) (fst (process_parsed read (SpecialView c) p v)).
Proof.
  intros P F. destruct c; cbn [raw_shape] in F; cbn [process_parsed made_of].
  - destruct F as [l [-> F]]. rewrite each_of_list. eexists. split; [reflexivity|]. eapply each_forall; [|exact F]. intros a Ha. now apply directive_fit.
  - destruct F as [l [-> F]]. rewrite each_of_list. eexists. split; [reflexivity|]. eapply each_forall; [|exact F].
    intros a Ha. apply (@arguments_fit read true StrictTransportSecurityView p "HSTSDirective" (Text or Nothing)); [exact P|cbn; tauto|exact text_or_nothing|now left].
  - destruct F as [F|[[l [-> F]]|[]]].
    + cbn [fits] in F. subst v. rewrite (proj2 (str_eqb_eq (s "clear") (s "clear")) eq_refl). apply one_of_in. eexists. split; [left; reflexivity|reflexivity].
    + rewrite each_of_list. apply one_of_in. eexists. split; [right; left; reflexivity|]. eexists. split; [reflexivity|]. eapply each_forall; [|exact F]. intros a Ha.
      apply fits_make2 in Ha. destruct Ha as [item [ps [-> [Hi H]]]]. apply fits_make1 in H. destruct H as [u [-> [ls [-> H]]]]. unfold process_alternative.
      pose proof (@each_forall (process_arguments read false alt_svc_param_table p) _ (fits (argument "AltSvcParam" (argument_value AltSvcView))) ls
        (fun b Hb => @arguments_fit read false AltSvcView p "AltSvcParam" Text b P ltac:(cbn; tauto) text_only (or_intror Hb)) H) as O.
      destruct (Header.each (process_arguments read false alt_svc_param_table p) ls) as [y ns]. cbn [fst] in *. apply make2_fits; [exact Hi|]. apply make1_fits. now exists y.
  - destruct F as [l [-> F]]. rewrite each_of_list. eexists. split; [reflexivity|]. eapply each_forall; [|exact F]. intros a Ha.
    apply fits_make2 in Ha. destruct Ha as [x [ps [-> [Hx Hp]]]]. unfold process_preference.
    assert (UP : unpack2 (VObj (s "Parametrized") [x; ps]) = Some (x, ps)) by reflexivity. rewrite UP. clear UP.
    pose proof (@arguments_fit read true PreferView p "Preference" (Text or Nothing) x P ltac:(cbn; tauto) text_or_nothing (or_introl Hx)) as O. cbn [table_of] in O.
    destruct (process_arguments read true preference_table p x) as [y ns]. cbn [fst] in *. apply make2_fits; [exact O|exact Hp].
  - destruct F as [l [-> F]]. rewrite each_of_list. eexists. split; [reflexivity|]. eapply each_forall; [|exact F].
    intros a Ha. apply (@arguments_fit read true PreferenceAppliedView p "Preference" (Text or Nothing)); [exact P|cbn; tauto|exact text_or_nothing|now left].
  - destruct F as [l [-> F]]. rewrite each_of_list. cbn [fst]. eexists. split; [reflexivity|]. eapply each_forall; [|exact F].
    intros a [x [-> Fx]]. rewrite each_of_list. cbn [fst]. eexists. split; [reflexivity|]. eapply each_forall; [|exact Fx].
    intros b Hb. apply (@arguments_fit read true ForwardedView p "ForwardedParam" Text); [exact P|cbn; tauto|exact text_only|now right].
Qed.

(** What an entry of a header whose syntax is known can be read as. *)
Definition entry_shape (name : str) (sh : shape) : shape :=
  match class_of name with Some (SpecialView c) => made_of c | _ => sh end.
Definition special_cases_ok : bool := forallb (fun kc => existsb (fun kd => str_eqb (fst kc) (s (fst kd)) && special_eqb (snd kc) (snd kd)) special_keys) special_cases.
Lemma special_cases_keys k c : In (k, c) special_cases -> exists key, k = s key /\ In (key, c) special_keys.
Proof.
  assert (E : special_cases_ok = true) by (vm_compute; reflexivity). intro I. pose proof (proj1 (forallb_forall _ _) E _ I) as H. cbn [fst snd] in H.
  apply existsb_exists in H. destruct H as [[key d] [J H]]. cbn [fst snd] in H. apply andb_true_iff in H. destruct H as [H1 H2]. apply str_eqb_eq in H1. apply special_eqb_eq in H2. subst. eauto.
Qed.

Lemma entry_fits read i x name c p e sh : parses_http read -> known_as i name -> hk_syntax i = Some x -> shape_of (hk_key i) = Some sh -> class_of name = Some c ->
  fits (OneOf [entry_shape name sh; Unread]) (fst (read_entry read c name p e)).
Proof.
  intros P K X S C. apply one_of_in. unfold entry_shape. rewrite C. pose proof (proj1 (known_as_iff _ _) K) as Hd. unfold read_entry, syntax_for. rewrite Hd, X.
  destruct (read x (e_value e)) as [[v cs]|] eqn:R; [|exists Unread; split; [right; left; reflexivity|eexists; reflexivity]].
  assert (F : fits sh v) by (eapply value_fits; [exact (proj1 K)|exact X|exact S|exact P|exact R]).
  destruct c as [| | |c].
  1-3: eexists; (split; [left; reflexivity|]); destruct (is_unavailable v); exact F.
  assert (R2 : sh = raw_shape c /\ True).
  { unfold class_of in C. destruct (find_special special_cases name) as [d|] eqn:Fs.
    - destruct (rule_for name) as [[]|]; try discriminate C. injection C as ->. apply find_special_some in Fs. destruct Fs as [k [Ik Lk]]. apply special_cases_keys in Ik. destruct Ik as [key [-> Ik]].
      pose proof (raw_shapes Ik) as RS. destruct (special_known Ik) as [_ [j [y [Ij [Kj [_ Hj]]]]]].
      assert (E : j = i) by (apply same_name_lower in Lk; apply same_name_lower in Lk; rewrite (header_of_same Lk) in Hj; congruence). subst j. rewrite Kj in S. split; [congruence|exact I].
    - destruct (rule_for name) as [[]|]; discriminate C. }
  destruct R2 as [-> _]. rewrite (raw_not_unavailable F). pose proof (special_fits p P F) as G. destruct (process_parsed read (SpecialView c) p v) as [v' ns]. cbn [fst] in *.
  exists (made_of c). split; [left; reflexivity|exact G].
Qed.

Lemma alternatives_plain x : forall y, In y (alternatives x) -> match y with OneOf _ => False | _ => True end.
Proof.
  induction x as [x B|l IH|x IH|x IH|l IH|c l IH] using shape_ind'; intros y H; try (destruct H as [<-|[]]; exact I).
  - destruct x; try discriminate B; destruct H as [<-|[]]; exact I.
  - cbn [alternatives] in H. apply in_flat_map in H. destruct H as [z [Iz H]]. rewrite Forall_forall in IH. exact (IH z Iz y H).
Qed.
Lemma list_alternative x l : fits x (VList l) -> exists z, In z (flat_map (fun y => match y with Many z | Many1 z => [z] | _ => [] end) (alternatives x)) /\ Forall (fits z) l.
Proof.
  intro H. apply alternatives_fits in H. destruct H as [y [Iy H]]. pose proof (alternatives_plain Iy) as N.
  assert (Z : exists z, (y = Many z \/ y = Many1 z) /\ Forall (fits z) l).
  { destruct y; try destruct N; cbn [fits] in H; try discriminate H.
    all: try (destruct H as [t H]; try discriminate H; destruct H as [H H']; try discriminate H).
    - injection H as <-. eauto.
    - injection H as <-. exists y. split; [now right|exact (proj2 H')]. }
  destruct Z as [z [E F]]. exists z. split; [|exact F]. apply in_flat_map. exists y. split; [exact Iy|]. destruct E as [->| ->]; left; reflexivity.
Qed.
Lemma other_alternative x v : fits x v -> is_list v = false -> exists y, In y (filter (fun y => match y with Many _ | Many1 _ => false | _ => true end) (alternatives x)) /\ fits y v.
Proof.
  intros H N. apply alternatives_fits in H. destruct H as [y [Iy H]]. exists y. split; [|exact H]. apply filter_In. split; [exact Iy|].
  destruct y; try reflexivity; destruct H as [l [-> _]]; discriminate.
Qed.

Lemma multi_fits name es vs x : Forall (fun v => fits (OneOf [x; Unread]) v) vs -> fits (shown_list x) (snd (fst (parse_multi name es vs))).
Proof.
  intro F. unfold shown_list. apply one_of_in. unfold parse_multi. destruct (filter (fun v => negb (is_list v || is_unavailable v)) vs) as [|v sg] eqn:E; cbn [fst snd].
  - eexists. split; [left; reflexivity|]. eexists. split; [reflexivity|]. apply Forall_forall. intros u Iu. unfold extend in Iu. apply in_flat_map in Iu. destruct Iu as [v [Iv Iu]].
    assert (NS : negb (is_list v || is_unavailable v) = false).
    { destruct (negb (is_list v || is_unavailable v)) eqn:Q; [|reflexivity]. assert (X : In v []) by (rewrite <- E; apply filter_In; auto). destruct X. }
    rewrite Forall_forall in F. specialize (F v Iv). apply one_of_in in F. apply one_of_in.
    destruct v; try discriminate NS.
    + destruct F as [y [[<-|[<-|[]]] F]].
      * apply list_alternative in F. destruct F as [z [Iz F]]. exists z. split; [right; exact Iz|]. rewrite Forall_forall in F. apply F. exact Iu.
      * destruct F as [u0 F]. discriminate F.
    + exists Unread. split; [left; reflexivity|]. destruct Iu as [<-|[]]. eexists. reflexivity.
  - assert (Iv : In v vs /\ negb (is_list v || is_unavailable v) = true) by (apply (@filter_In _ (fun v => negb (is_list v || is_unavailable v))); rewrite E; now left). destruct Iv as [Iv NS].
    destruct (_ && _); cbn [fst snd].
    + rewrite Forall_forall in F. specialize (F v Iv). apply one_of_in in F. destruct F as [y [[<-|[<-|[]]] F]].
      * destruct (other_alternative F) as [z [Iz Fz]]; [destruct (is_list v); [discriminate NS|reflexivity]|]. exists z. split; [right; exact Iz|exact Fz].
      * destruct F as [u ->]. discriminate NS.
    + eexists. split; [left; reflexivity|]. eexists. split; [reflexivity|]. constructor; [|constructor]. apply one_of_in. exists Unread. split; [left; reflexivity|]. eexists. reflexivity.
Qed.
Lemma single_fits name es vs x : Forall (fun v => fits (OneOf [x; Unread]) v) vs -> fits (shown_one x) (snd (fst (parse_single name es vs))).
Proof.
  intro F. unfold shown_one. apply one_of_in. unfold parse_single. destruct (rev es) as [|e re]; [exists Nothing; split; [right; right; left; reflexivity|reflexivity]|].
  destruct (rev vs) as [|v rv] eqn:R; cbn [fst snd]; [exists Nothing; split; [right; right; left; reflexivity|reflexivity]|].
  assert (Iv : In v vs) by (apply in_rev; rewrite R; now left). rewrite Forall_forall in F. specialize (F v Iv). apply one_of_in in F. destruct F as [y [Iy F]]. exists y. split; [|exact F].
  destruct Iy as [<-|[<-|[]]]; [left|right; left]; reflexivity.
Qed.

Lemma syntax_has_rule : forallb (fun i => match hk_syntax i, hk_rule i with Some _, None => false | _, _ => true end) header_table = true.
Proof. vm_compute. reflexivity. Qed.

(** C64.  The value of a view has the shape that follows from the shape of its
    entries and from how entries of that header are combined. *)
Theorem C64_views : forall read m name i x v, parses_http read -> view_is read m name v -> known_as i name -> hk_syntax i = Some x ->
  exists key sh, In (key, sh) value_shapes /\ hk_key i = s key /\ fits (view_shape key sh) (v_value v).
Proof.
  intros read m name i x v P V K X. pose proof (proj1 (forallb_forall _ _) headers_checked i (proj1 K)) as C. unfold header_checked in C. rewrite X in C.
  destruct (shape_of (hk_key i)) as [sh|] eqn:S; [|discriminate C]. clear C.
  assert (S2 : exists key, In (key, sh) value_shapes /\ hk_key i = s key).
  { unfold shape_of in S. destruct (find _ value_shapes) as [[key sh']|] eqn:F; [|discriminate S]. apply find_some in F. destruct F as [F1 F2]. cbn [fst snd] in *. injection S as ->.
    apply str_eqb_eq in F2. exists key. split; [exact F1|now symmetry]. }
  destruct S2 as [key [Ik Kk]]. exists key, sh. split; [exact Ik|]. split; [exact Kk|].
  apply view_is_iff in V. destruct V as [c [D ->]].
  assert (CN : class_of (s key) = Some c) by (rewrite <- D; apply class_of_same; rewrite <- Kk; apply same_name_lower; exact (proj2 K)).
  unfold view_shape. rewrite CN. unfold parse_view. rewrite pre_parse_eq.
  set (us := filter (kept name) (enumerate m name)). set (vs := map (fun x => fst (read_entry read c name (fst x) (snd x))) us).
  assert (F : Forall (fun v => fits (OneOf [entry_shape name sh; Unread]) v) vs).
  { apply Forall_forall. intros w I. unfold vs in I. apply in_map_iff in I. destruct I as [e [<- _]]. eapply entry_fits; eassumption. }
  assert (NU : c <> UnknownView).
  { intros ->. pose proof (proj1 (forallb_forall _ _) syntax_has_rule i (proj1 K)) as R. cbv beta in R. rewrite X in R.
    unfold class_of in D. destruct (find_special special_cases name); [destruct (rule_for name) as [[]|]; discriminate D|].
    unfold rule_for in D. rewrite (proj1 (known_as_iff _ _) K) in D. destruct (hk_rule i) as [[]|]; [discriminate D|discriminate D|discriminate D|discriminate R]. }
  unfold entry_shape in F. rewrite D in F.
  assert (G : forall r : list (place * entry) * val * list notice, v_value (let '(es', w, ns') := r in View es' w (flat_map (fun x : place * entry => if kept name x then snd (read_entry read c name (fst x) (snd x)) else [(1026%N, [(s "entry", AEntry (fst x))])]) (enumerate m name) ++ ns')) = snd (fst r)) by (intros [[? ?] ?]; reflexivity).
  rewrite G. destruct c as [| | |[]]; cbn [combine_entries]; try congruence; first [apply single_fits; exact F|apply multi_fits; exact F].
Qed.
Print Assumptions C64_views.

(** ** C65 for views *)

Definition calm_view (p : string * shape) : bool := String.eqb (fst p) "Link" || calm (view_shape (fst p) (snd p)).
Lemma views_calm : forallb calm_view value_shapes = true.
Proof. vm_compute. reflexivity. Qed.

Lemma unparsed_calm read m name v : syntax_for name = None -> view_is read m name v -> ~ crashed (v_value v).
Proof.
  intros S V. apply view_is_iff in V. destruct V as [c [D ->]]. unfold parse_view. rewrite pre_parse_eq.
  set (us := filter (kept name) (enumerate m name)). set (vs := map (fun x => fst (read_entry read c name (fst x) (snd x))) us).
  assert (B : Forall (fun v => exists w, v = VBytes w) vs).
  { apply Forall_forall. intros w I. unfold vs in I. apply in_map_iff in I. destruct I as [e [<- _]]. unfold read_entry. rewrite S. eexists. reflexivity. }
  assert (G : forall r : list (place * entry) * val * list notice, v_value (let '(es', w, ns') := r in View es' w (flat_map (fun x : place * entry => if kept name x then snd (read_entry read c name (fst x) (snd x)) else [(1026%N, [(s "entry", AEntry (fst x))])]) (enumerate m name) ++ ns')) = snd (fst r)) by (intros [[? ?] ?]; reflexivity).
  rewrite G.
  assert (Fs : fits (shown_one Octets) (snd (fst (parse_single name us vs)))).
  { apply single_fits. eapply Forall_impl; [|exact B]. intros w [b ->]. apply one_of_in. exists Octets. split; [left; reflexivity|eexists; reflexivity]. }
  assert (Fm : fits (shown_list Octets) (snd (fst (parse_multi name us vs)))).
  { apply multi_fits. eapply Forall_impl; [|exact B]. intros w [b ->]. apply one_of_in. exists Octets. split; [left; reflexivity|eexists; reflexivity]. }
  assert (Fu : fits (Octets or Nothing) (snd (fst (parse_unknown us vs)))).
  { apply one_of_in. unfold parse_unknown. cbn [fst snd]. destruct vs as [|w vs']; [exists Nothing; split; [right; left; reflexivity|reflexivity]|].
    exists Octets. split; [left; reflexivity|]. clear - B. revert w B. induction vs' as [|u vs' IH]; intros w B; inversion B as [|? ? [b ->] B']; subst.
    - eexists. reflexivity.
    - destruct (IH u B') as [y Ey]. change (join_bytes (VBytes b :: u :: vs')) with (match join_bytes (u :: vs') with VBytes y => VBytes (b ++ 44%N :: y) | _ => VBad end). rewrite Ey. eexists. reflexivity. }
  destruct c as [| | |[]]; cbn [combine_entries]; first [apply (calm_ok (eq_refl : calm (Octets or Nothing) = true) Fu)|apply (calm_ok (eq_refl : calm (shown_one Octets) = true) Fs)|apply (calm_ok (eq_refl : calm (shown_list Octets) = true) Fm)].
Qed.

(** The header called [name] is looked up without an exception, unless it is
    Link. *)
Theorem C65_views : forall read m name v, parses_http read -> view_is read m name v -> ~ P_Header.same_name name (s "Link") -> ~ crashed (v_value v).
Proof.
  intros read m name v P V N. destruct (header_of name) as [i|] eqn:Hd.
  - pose proof (proj2 (known_as_iff _ _) Hd) as K. destruct (hk_syntax i) as [x|] eqn:X.
    + destruct (C64_views P V K X) as [key [sh [Ik [Kk F]]]]. pose proof (proj1 (forallb_forall _ _) views_calm _ Ik) as C. unfold calm_view in C. cbn [fst snd] in C.
      apply orb_true_iff in C. destruct C as [C|C]; [|exact (calm_ok C F)]. apply String.eqb_eq in C. subst key. exfalso. apply N. apply same_name_sym. rewrite <- Kk. exact (proj2 K).
    + revert V. apply (@unparsed_calm read m name v). unfold syntax_for. now rewrite Hd.
  - revert V. apply (@unparsed_calm read m name v). unfold syntax_for. now rewrite Hd.
Qed.
Print Assumptions C65_views.

(** ** Examples *)

Definition caching : entries := Entries [Entry (s "cache-control") (s "Max-Age=5,public=1")] [].
Example C66_example : exists v, view_is (run_http 3000) caching (s "Cache-Control") v /\ parses_http (run_http 3000) /\
  P_Header.same_name (s "Cache-Control") (s "Cache-Control") /\
  v_value v = VList [pair_of (s "CacheDirective") (s "Max-Age") (VInt 5); pair_of (s "CacheDirective") (s "public") (VUnavailable (VStr (s "1")))] /\
  map fst (v_notices v) = [1157%N] /\ directive v (s "max-age") = VInt 5 /\ directive v (s "private") = VNone.
Proof.
  eexists. split; [apply view_is_iff; eexists; split; [vm_compute; reflexivity|reflexivity]|]. split; [apply run_http_parses|]. split; [now apply same_name_lower|].
  vm_compute. repeat split; reflexivity.
Qed.
