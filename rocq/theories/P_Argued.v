(** C113: what the values of headers with arguments are made of. *)
From Coq Require Import ZifyBool ZifyNat ZifyN Permutation String.
From Verif Require Import ChecksRequest ChecksResponse P_Bodies RulesLogic Rules RulesBase RulesMessage RulesPayload RulesAny RulesRequest RulesOfResponse RulesResponse RulesContext.
From Verif Require Import Base Earley Parse Grammar GrammarWF Syntax Actions Nested Reading P_Earley P_Grammar P_Types Text Structure Known Tables Header HeaderProofs P_Header P_Views P_Util Values Notices
  ChecksBase ChecksLogic ChecksViews ChecksFacts ChecksSays ChecksTop ChecksExchange ChecksExample ChecksMessage P_Exchange P_Safe HeaderValue P_Rules HttpText HttpValues UriText MoreValues P_More AgainValues SyntaxAgain P_Again.
Open Scope nat_scope.
Open Scope list_scope.
Unset Strict Implicit.
Local Open Scope string_scope.
Local Open Scope list_scope.
From Verif Require Import P_Whole P_Views.

(** ** Specification *)

(** The name [m] in a specification is that of the argument [n]; names of parameters of Alt-Svc are compared with
    case. *)
Definition refers (ci : bool) (m : string) (n : str) : Prop := if ci then P_Header.same_name (s m) n else s m = n.
(** No argument may be given to [n]. *)
Definition forbidden (ci : bool) (t : list arg_info) (n : str) : Prop := exists i, knows ci t n i /\ ak_argument i = Some ArgNo.
(** An argument [given] to [n] is taken as [result] and reported with [ns]; [R] is how arguments are specified to be read. *)
Inductive argued (ci : bool) (t : list arg_info) (R : list (string * reading)) (p : place) (c n : str) : val -> val -> list notice -> Prop :=
| ar_missing i : knows ci t n i -> ak_argument i = Some ArgRequired ->
    argued ci t R p c n VNone (VUnavailable (VStr [])) [(1156%N, [(s "entry", AEntry p); (s "name", AVal (word c n))])]
| ar_none : (forall i, knows ci t n i -> ak_argument i <> Some ArgRequired) -> argued ci t R p c n VNone VNone []
| ar_forbidden w : forbidden ci t n ->
    argued ci t R p c n (VStr w) (VUnavailable (VStr w)) [(1157%N, [(s "entry", AEntry p); (s "name", AVal (word c n))])]
| ar_read m S w v cs cs' : ~ forbidden ci t n -> In (m, S) R -> refers ci m n -> S w v cs -> Permutation cs cs' ->
    argued ci t R p c n (VStr w) v
      (map (fun k => (fst k, (s "place", AEntry p) :: [(s "name", AVal (word c n)); (s "value", AVal (VStr w))] ++ map (fun kv => (fst kv, AVal (snd kv))) (snd k))) cs')
| ar_malformed m S w : ~ forbidden ci t n -> In (m, S) R -> refers ci m n -> ~ (exists v cs, S w v cs) ->
    argued ci t R p c n (VStr w) (VUnavailable (VBytes w))
      [(1158%N, [(s "error", AVal (VObj (s "ParseError") [])); (s "place", AEntry p); (s "name", AVal (word c n)); (s "value", AVal (VStr w))])]
| ar_free w : ~ forbidden ci t n -> (forall m S, In (m, S) R -> ~ refers ci m n) -> argued ci t R p c n (VStr w) (VStr w) [].
(** With the specifications for the table. *)
Definition argument_of ci t p c n given r ns : Prop := exists R, In (t, R) argument_readings /\ argued ci t R p c n given r ns.
Definition pair_argued ci t p (a b : val) (ns : list notice) : Prop :=
  exists c n given r, (a = pair_of c n given \/ a = VTuple [word c n; given]) /\ b = pair_of c n r /\ argument_of ci t p c n given r ns.
Definition directive_argued p (a b : val) (ns : list notice) : Prop :=
  exists c n r, b = pair_of c n r /\
  ((a = pair_of c n VNone /\ argument_of true cache_directive_table p c n VNone r ns) \/
   (exists form w ns1 ns2, a = pair_of c n (VTuple [VStr (s form); VStr w]) /\ wrong_form c n form ns1 /\
     argument_of true cache_directive_table p c n (VStr w) r ns2 /\ ns = ns1 ++ ns2)).
(** What is made of a field that was read as specified. *)
Inductive made_of (p : place) : string -> val -> val -> list notice -> Prop :=
| mo_cache l l' ns : one_by_one (directive_argued p) l l' ns -> made_of p "Cache-Control" (VList l) (VList l') ns
| mo_hsts l l' ns : one_by_one (pair_argued true hsts_directive_table p) l l' ns -> made_of p "Strict-Transport-Security" (VList l) (VList l') ns
| mo_applied l l' ns : one_by_one (pair_argued true preference_table p) l l' ns -> made_of p "Preference-Applied" (VList l) (VList l') ns
| mo_prefer l l' ns :
    one_by_one (fun a b ns => exists x y ps, a = VObj (s "Parametrized") [x; ps] /\ b = VObj (s "Parametrized") [y; ps] /\
      pair_argued true preference_table p x y ns) l l' ns -> made_of p "Prefer" (VList l) (VList l') ns
| mo_clear : made_of p "Alt-Svc" (VStr (s "clear")) (VStr (s "clear")) []
| mo_alternatives l l' ns :
    one_by_one (fun a b ns => exists item x y, a = VObj (s "Parametrized") [item; VObj (s "MultiDict") [VList x]] /\
      b = VObj (s "Parametrized") [item; VObj (s "MultiDict") [VList y]] /\
      one_by_one (pair_argued false alt_svc_param_table p) x y ns) l l' ns -> made_of p "Alt-Svc" (VList l) (VList l') ns
| mo_forwarded l l' ns dups :
    one_by_one (fun a b ns => exists x y, a = VList x /\ b = VList y /\ one_by_one (pair_argued true forwarded_param_table p) x y ns) l l' ns ->
    (* repeated parameters are the subject of C63 *)
    Forall (fun n => fst n = 1296%N \/ fst n = 1297%N) dups -> made_of p "Forwarded" (VList l) (VList l') (ns ++ dups).
(** What a field with the text [w] is worth, and what is reported, if fields of its name are specified to be read as [S]. *)
Inductive field_gives (S : reading) (key : string) (p : place) (w : str) : val -> list notice -> Prop :=
| fg_malformed : ~ (exists v cs, S w v cs) ->
    field_gives S key p w (VUnavailable (VBytes w)) [(1000%N, [(s "error", AVal (VObj (s "ParseError") [])); (s "place", AEntry p)])]
| fg_read v cs cs' v' ns delims : S w v cs -> Permutation cs cs' -> made_of p key v v' ns ->
    (* delimiters inside quoted strings are the subject of C62 *)
    Forall (fun n => fst n = 1299%N \/ fst n = 1300%N) delims ->
    field_gives S key p w v' (map (fun k => (fst k, (s "place", AEntry p) :: map (fun kv => (fst kv, AVal (snd kv))) (snd k))) cs' ++ ns ++ delims).

(** Which names must have an argument and which can have none, by the specifications. *)
Definition requirements : list (bool * list arg_info * (list string * list string)) := [
  (true, cache_directive_table, (["max-age"; "min-fresh"; "s-maxage"; "stale-if-error"; "stale-while-revalidate"],
    ["immutable"; "must-revalidate"; "no-store"; "no-transform"; "only-if-cached"; "proxy-revalidate"; "public"]));
  (true, hsts_directive_table, (["max-age"], ["includeSubDomains"]));
  (false, alt_svc_param_table, (["ma"; "persist"], []));
  (true, preference_table, (["handling"; "return"; "wait"], ["respond-async"]));
  (true, forwarded_param_table, (["by"; "for"; "host"; "proto"], []))].

(** ** Proofs *)

Lemma names_where (f : arg_info -> bool) ci t l n : map ak_key (filter f t) = map s l ->
  ((exists i, knows ci t n i /\ f i = true) <-> exists m, In m l /\ refers ci m n).
Proof.
  intro E. unfold knows, refers. split.
  - intros (i & (I & K) & F). assert (J : In (ak_key i) (map s l)) by (rewrite <- E; apply in_map, filter_In; auto). apply in_map_iff in J. destruct J as (m & M & J). exists m. split; [exact J|]. now rewrite M.
  - intros (m & M & R). assert (J : In (s m) (map ak_key (filter f t))) by (rewrite E; now apply in_map). apply in_map_iff in J. destruct J as (i & K & J). apply filter_In in J. destruct J as (J & F). exists i. split; [split; [exact J|now rewrite K]|exact F].
Qed.
(** What a row says, decided; only for the proofs. *)
Definition is_required (i : arg_info) : bool := match ak_argument i with Some ArgRequired => true | _ => false end.
Definition is_forbidden (i : arg_info) : bool := match ak_argument i with Some ArgNo => true | _ => false end.
Definition is_token (i : arg_info) : bool := match ak_form i with Some FormToken => true | _ => false end.
Definition is_quoted (i : arg_info) : bool := match ak_form i with Some FormQuotedString => true | _ => false end.
Definition no_request (i : arg_info) : bool := match ak_for_request i with Some false => true | _ => false end.
Definition no_response (i : arg_info) : bool := match ak_for_response i with Some false => true | _ => false end.
Lemma exists_iff (A B : arg_info -> Prop) (f : arg_info -> bool) (Q : Prop) : (forall i, f i = true <-> B i) -> ((exists i, A i /\ f i = true) <-> Q) -> ((exists i, A i /\ B i) <-> Q).
Proof. intros F H. rewrite <- H. split; intros (i & X & Y); exists i; (split; [exact X|now apply F]). Qed.


Lemma arguments_proper : forallb (fun t => forallb (fun i => match ak_syntax i with Some x => GrammarWF.proper rec_names x | None => true end) (snd t)) all_tables = true.
Proof. vm_compute. reflexivity. Qed.
Lemma readings_for ci t : In (ci, t) all_tables -> exists R, In (t, R) argument_readings.
Proof.
  unfold all_tables. cbn [In]. intro I. unfold argument_readings. cbn [In].
  repeat (destruct I as [I|I]; [injection I as <- <-; eexists; first [left; reflexivity|right; left; reflexivity|right; right; left; reflexivity|right; right; right; left; reflexivity|right; right; right; right; left; reflexivity]|]). destruct I.
Qed.
Section Read.
Variable read : symbol -> str -> option (val * list vcomplaint).
Hypothesis P : parser_of read.
Lemma knows_one ci t n i j : In (ci, t) all_tables -> knows ci t n i -> knows ci t n j -> i = j.
Proof. intros T I J. apply (find_arg_knows _ _ T) in I, J. congruence. Qed.
Lemma judged_argued ci t p c n g r ns : In (ci, t) all_tables -> judged read ci t p c n g r ns -> argument_of ci t p c n g r ns.
Proof.
  intros T J. destruct (readings_for T) as (R & I). exists R. split; [exact I|]. destruct (C105_arguments I) as (C1 & C2). destruct P as (nst & again & (D & _) & D' & _).
  assert (X : forall i x, knows ci t n i -> ak_syntax i = Some x -> exists m S, In (m, S) R /\ refers ci m n /\ reads_by (read x) S).
  { intros i x (K1 & K2) Y. destruct (C1 i x K1 Y) as (m & S & M & E & A). exists m, S. split; [exact M|]. split; [unfold refers; now rewrite <- E|].
    intro w. assert (Px : is_proper x). { pose proof (proj1 (forallb_forall _ _) arguments_proper _ T) as H. cbn [snd] in H. pose proof (proj1 (forallb_forall _ _) H _ K1) as H'. cbn beta in H'. now rewrite Y in H'. }
    destruct (again_reads D' Px A w) as [(v & k & k' & -> & B & Q)|(-> & B)]; eauto. }
  assert (F : forall i, knows ci t n i -> ak_argument i <> Some ArgNo -> ~ forbidden ci t n) by (intros i K A (j & K' & A'); apply A; rewrite (knows_one T K K'); exact A').
  destruct J as [i K A|A|i w K A|i w x v cs K A Y E|i w x K A Y E|w A].
  - eapply ar_missing; eauto.
  - now apply ar_none.
  - apply ar_forbidden. exists i. auto.
  - destruct (X i x K Y) as (m & S & M & Rf & B). specialize (B w). rewrite E in B. destruct B as (cs' & B & Q). exact (@ar_read ci t R p c n m S w v cs' cs (F i K A) M Rf B (Permutation_sym Q)).
  - destruct (X i x K Y) as (m & S & M & Rf & B). specialize (B w). rewrite E in B. exact (@ar_malformed ci t R p c n m S w (F i K A) M Rf B).
  - apply ar_free; [intros (j & K & Z); exact (proj1 (A j K) Z)|]. intros m S M Rf. destruct (C2 m S M) as (i & x & Ii & Ki & Si & _). assert (K : knows ci t n i) by (split; [exact Ii|]; unfold refers in Rf; now rewrite Ki). rewrite (proj2 (A i K)) in Si. discriminate Si.
Qed.
Lemma obo_impl (A B : val -> val -> list notice -> Prop) l l' ns : (forall a b k, A a b k -> B a b k) -> one_by_one A l l' ns -> one_by_one B l l' ns.
Proof. intros H O. induction O; constructor; auto. Qed.
Lemma pair_judged ci t p a b ns : In (ci, t) all_tables -> judged_pair read ci t p a b ns -> pair_argued ci t p a b ns.
Proof. intros T (c & n & g & r & A & B & J). exists c, n, g, r. auto using judged_argued. Qed.
Lemma table_cache : In (true, cache_directive_table) all_tables. Proof. now left. Qed.
Lemma table_hsts : In (true, hsts_directive_table) all_tables. Proof. right. now left. Qed.
Lemma table_alt : In (false, alt_svc_param_table) all_tables. Proof. right. right. now left. Qed.
Lemma table_pref : In (true, preference_table) all_tables. Proof. right. right. right. now left. Qed.
Lemma table_forwarded : In (true, forwarded_param_table) all_tables. Proof. right. right. right. right. now left. Qed.
Lemma directive_judged p a b ns : judged_directive read p a b ns -> directive_argued p a b ns.
Proof.
  intros (c & n & r & B & [(A & J)|(form & w & ns1 & ns2 & A & W & J & E)]); exists c, n, r; (split; [exact B|]).
  - left. split; [exact A|]. exact (judged_argued table_cache J).
  - right. exists form, w, ns1, ns2. split; [exact A|]. split; [exact W|]. split; [exact (judged_argued table_cache J)|exact E].
Qed.
Lemma processed_made p key v v' ns : processed read p key v v' ns -> made_of p key v v' ns.
Proof.
  intros [l l' k H|l l' k H|l l' k H|l l' k H| |l l' k H|l l' k d H D].
  - apply mo_cache. revert H. apply obo_impl. intros. now apply directive_judged.
  - apply mo_hsts. revert H. apply obo_impl. intros a b j J. exact (pair_judged table_hsts J).
  - apply mo_applied. revert H. apply obo_impl. intros a b j J. exact (pair_judged table_pref J).
  - apply mo_prefer. revert H. apply obo_impl. intros a b j (x & y & ps & A & B & J). exists x, y, ps. split; [exact A|]. split; [exact B|]. exact (pair_judged table_pref J).
  - apply mo_clear.
  - apply mo_alternatives. revert H. apply obo_impl. intros a b j (i & x & y & A & B & J). exists i, x, y. split; [exact A|]. split; [exact B|]. revert J. apply obo_impl. intros a' b' j' J. exact (pair_judged table_alt J).
  - apply mo_forwarded; [|exact D]. revert H. apply obo_impl. intros a b j (x & y & A & B & J). exists x, y. split; [exact A|]. split; [exact B|]. revert J. apply obo_impl. intros a' b' j' J. exact (pair_judged table_forwarded J).
Qed.
Lemma entry_field S key p w v ns : header_means (s key) S -> entry_gives read key p w v ns -> field_gives S key p w v ns.
Proof.
  intros M G. destruct (meant P M) as (i & x & K & X & B). specialize (B w).
  destruct G as [j y J Y Ry|j y u cs v' k d J Y Ry G D]; (assert (j = i) as -> by (eapply known_as_unique; eauto)); (assert (y = x) as -> by congruence); rewrite Ry in B.
  - now apply fg_malformed.
  - destruct B as (cs' & B & Q). exact (@fg_read S key p w u cs' cs v' k d B (Permutation_sym Q) (processed_made G) D).
Qed.
End Read.
Lemma special_listed : forallb (fun k => existsb (String.eqb k) (map fst header_readings)) (map fst special_keys) = true.
Proof. vm_compute. reflexivity. Qed.
Lemma special_meant key c : In (key, c) special_keys -> exists S, header_means (s key) S /\ In (key, S) header_readings.
Proof.
  intro I. pose proof (proj1 (forallb_forall _ _) special_listed key (in_map fst _ _ I)) as H. apply existsb_exists in H. destruct H as (k & K & E). apply String.eqb_eq in E. subst k.
  apply in_map_iff in K. destruct K as ((k & S) & E & K). cbn [fst] in E. subst k. exists S. split; [exists key; split; [exact K|now apply same_name_lower]|exact K].
Qed.

(** C113.  The value of a header with arguments is made of what its fields are worth: each is read as specified for the
    header, and each argument as specified for its name.  What is reported is what the fields give, and notices about the
    header as a whole. *)
Theorem C113_arguments : forall read m key c name us v, parser_of read -> In (key, c) special_keys -> P_Header.same_name name (s key) ->
  all_usable m name us -> view_is read m name v ->
  exists S vs nss, In (key, S) header_readings /\
    Forall2 (fun x r => field_gives S key (fst x) (e_value (snd x)) (fst r) (snd r)) us (combine vs nss) /\ List.length vs = List.length nss /\
    (key = "Strict-Transport-Security"%string -> v_value v = last vs VNone) /\
    (key <> "Strict-Transport-Security"%string ->
       (forall ls, Forall2 contributes vs ls -> v_value v = VList (List.concat ls)) /\
       (forall w, vs = [w] -> (forall l, ~ contributes w l) -> v_value v = w)) /\
    (forall n ns, In ns nss -> In n ns -> In n (v_notices v)) /\
    (forall n, In n (v_notices v) -> (exists ns, In ns nss /\ In n ns) \/ fst n = 1013%N \/ fst n = 1026%N).
Proof.
  intros read m key c name us v P H N U V. destruct (special_meant H) as (S & M & I). destruct (C66_arguments (parser_http P) H N U V) as (vs & nss & F & R).
  exists S, vs, nss. split; [exact I|]. split; [|exact R]. clear - F P M. induction F as [|x r l l' A F IH]; constructor; [exact (entry_field P M A)|exact IH].
Qed.
Print Assumptions C113_arguments.

(** And which names these are: whatever its case, a name is one of those listed (of Alt-Svc, as listed), exactly if an
    argument is required of it or forbidden to it, if it should be written as a token or quoted string, or if it is
    meant for responses or requests only. *)
Theorem C113_requirements :
  map fst requirements = all_tables /\
  (forall ci t need deny n, In (ci, t, (need, deny)) requirements ->
    ((exists i, knows ci t n i /\ ak_argument i = Some ArgRequired) <-> exists m, In m need /\ refers ci m n) /\
    (forbidden ci t n <-> exists m, In m deny /\ refers ci m n)) /\
  (forall n,
    ((exists i, knows true cache_directive_table n i /\ ak_form i = Some FormToken) <->
       exists m, In m ["max-age"; "max-stale"; "min-fresh"; "s-maxage"] /\ refers true m n) /\
    ((exists i, knows true cache_directive_table n i /\ ak_form i = Some FormQuotedString) <-> exists m, In m ["no-cache"; "private"] /\ refers true m n) /\
    ((exists i, knows true cache_directive_table n i /\ ak_for_request i = Some false) <->
       exists m, In m ["immutable"; "must-revalidate"; "private"; "proxy-revalidate"; "public"; "s-maxage"; "stale-while-revalidate"] /\ refers true m n) /\
    ((exists i, knows true cache_directive_table n i /\ ak_for_response i = Some false) <->
       exists m, In m ["max-stale"; "min-fresh"; "only-if-cached"] /\ refers true m n)).
Proof.
  split; [reflexivity|]. split.
  - intros ci t need deny n H. unfold requirements in H. cbn [In] in H.
    repeat (destruct H as [H|H]; [injection H as <- <- <- <-; split;
      [apply (exists_iff (f := is_required)); [intro i; unfold is_required; destruct (ak_argument i) as [[| |]|]; split; intro X; congruence|apply names_where; vm_compute; reflexivity]
      |apply (exists_iff (f := is_forbidden)); [intro i; unfold is_forbidden; destruct (ak_argument i) as [[| |]|]; split; intro X; congruence|apply names_where; vm_compute; reflexivity]]|]). destruct H.
  - intro n. split; [|split; [|split]].
    + apply (exists_iff (f := is_token)); [intro i; unfold is_token; destruct (ak_form i) as [[|]|]; split; intro X; congruence|apply names_where; vm_compute; reflexivity].
    + apply (exists_iff (f := is_quoted)); [intro i; unfold is_quoted; destruct (ak_form i) as [[|]|]; split; intro X; congruence|apply names_where; vm_compute; reflexivity].
    + apply (exists_iff (f := no_request)); [intro i; unfold no_request; destruct (ak_for_request i) as [[|]|]; split; intro X; congruence|apply names_where; vm_compute; reflexivity].
    + apply (exists_iff (f := no_response)); [intro i; unfold no_response; destruct (ak_for_response i) as [[|]|]; split; intro X; congruence|apply names_where; vm_compute; reflexivity].
Qed.
Print Assumptions C113_requirements.
Example C113_no_store : forbidden true cache_directive_table (s "No-Store") /\ ~ forbidden true cache_directive_table (s "no-cache") /\ ~ forbidden false alt_svc_param_table (s "MA").
Proof.
  destruct C113_requirements as (_ & R & _). split; [|split].
  - apply (R true cache_directive_table _ _ (s "No-Store") (or_introl eq_refl)). exists "no-store"%string. split; [right; right; now left|apply same_name_lower; reflexivity].
  - intro X. apply (R true cache_directive_table _ _ _ (or_introl eq_refl)) in X. destruct X as (m & M & X). unfold refers in X. rewrite same_name_lower in X. cbn [In] in M. repeat (destruct M as [<-|M]; [vm_compute in X; discriminate X|]). destruct M.
  - intro X. apply (R false alt_svc_param_table _ _ _ (or_intror (or_intror (or_introl eq_refl)))) in X. destruct X as (m & [] & _).
Qed.
(** A parser exists, and gives an argument that is not a number as unavailable. *)
Example C113_example :
  (exists read us v, parser_of read /\ In ("Strict-Transport-Security", StrictTransportSecurityView) special_keys /\
     all_usable (Entries [Entry (s "strict-transport-security") (s "max-age=x")] []) (s "strict-transport-security") us /\ us <> [] /\
     view_is read (Entries [Entry (s "strict-transport-security") (s "max-age=x")] []) (s "strict-transport-security") v) /\
  (forall p, pair_argued true hsts_directive_table p (pair_of (s "HSTSDirective") (s "Max-Age") (VStr (s "x"))) (pair_of (s "HSTSDirective") (s "Max-Age") (VUnavailable (VBytes (s "x"))))
     [(1158%N, [(s "error", AVal (VObj (s "ParseError") [])); (s "place", AEntry p); (s "name", AVal (word (s "HSTSDirective") (s "Max-Age"))); (s "value", AVal (VStr (s "x")))])]) /\
  (forall p, pair_argued true hsts_directive_table p (pair_of (s "HSTSDirective") (s "max-age") (VStr (s "60"))) (pair_of (s "HSTSDirective") (s "max-age") (VInt 60)) []).
Proof.
  assert (Fb : forall n, P_Header.same_name (s "max-age") n -> ~ forbidden true hsts_directive_table n).
  { intros n E (i & (I & K) & A). rewrite same_name_lower in *. unfold hsts_directive_table in I. cbn [In] in I.
    repeat (destruct I as [<-|I]; [first [discriminate A|cbn [ak_key] in K; rewrite <- K in E; vm_compute in E; discriminate E]|]). destruct I. }
  assert (R : In (hsts_directive_table, [("max-age", number_text)]) argument_readings) by (right; now left).
  split; [|split].
  - destruct parsers as (read & P). exists read. eexists. exists (got_view read (Entries [Entry (s "strict-transport-security") (s "max-age=x")] []) (s "strict-transport-security")). split; [exact P|]. split; [right; now left|].
    split; [apply kept_usable|]. split; [vm_compute; discriminate|apply got_is].
  - intro p. exists (s "HSTSDirective"), (s "Max-Age"), (VStr (s "x")), (VUnavailable (VBytes (s "x"))). split; [now left|]. split; [reflexivity|]. exists [("max-age", number_text)]. split; [exact R|].
    apply (@ar_malformed true hsts_directive_table _ p _ _ "max-age" number_text); [apply Fb; apply same_name_lower; reflexivity|now left|apply same_name_lower; reflexivity|].
    intros (v & cs & (_ & D) & _). inversion D as [|a l H1 H2]. discriminate H1.
  - intro p. exists (s "HSTSDirective"), (s "max-age"), (VStr (s "60")), (VInt 60). split; [now left|]. split; [reflexivity|]. exists [("max-age", number_text)]. split; [exact R|].
    refine (@ar_read true hsts_directive_table _ p _ _ "max-age" number_text (s "60") (VInt 60) [] [] _ _ _ _ _); [apply Fb; apply same_name_lower; reflexivity|now left|apply same_name_lower; reflexivity| |constructor].
    split; [now apply P_More.some_of|]. split; reflexivity.
Qed.
