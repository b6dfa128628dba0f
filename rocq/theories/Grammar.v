(** Model of the grammar combinators: httpolice/parse.py:176-697.

    Symbols are trees.  Python compares symbols and rules by identity; here
    they are compared by structure, so two separately built but equal symbols
    count as one.  They have the same rules and the same actions, so this
    changes neither the language nor the values.  A symbol made with
    [recursive()] is a name, [Rec], whose rules are found in an environment.
    Citations are left out. *)
From Verif Require Import Base Earley.
Local Open Scope N_scope.
Unset Strict Implicit.

(** * Values *)

(** The Python values that occur as nodes.  [VObj cls args] is an instance of
    a class of httpolice.structure (or datetime) made from these arguments;
    [VBad] stands for an exception raised by an action. *)
Inductive val :=
| VStr (x : str)
| VBytes (x : str)
| VNone
| VSkip                              (* [_SKIP], httpolice/parse.py:492-497 *)
| VBool (b : bool)
| VInt (z : Z)
| VFloat (x : str)                   (* [float(x)], by its literal *)
| VList (l : list val)
| VTuple (l : list val)
| VObj (cls : str) (args : list val)
| VUnavailable (x : val)
| VBad.

Fixpoint val_dec (a b : val) {struct a} : {a = b} + {a <> b}.
Proof.
  decide equality; try apply (list_eq_dec N.eq_dec); try apply bool_dec; try apply Z.eq_dec;
    apply (list_eq_dec val_dec).
Defined.

Definition vcomplaint : Type := N * list (str * val).

(** * Semantic actions *)

(** The functions of httpolice.syntax that are given to [<<]. *)
Inductive pyf :=
| PCheckMediaType                    (* common.py:24-28 *)
| PCheckSensible (sensible_for : str) (* rfc7230.py:28-32 *)
| PStripParens                       (* rfc7230.py:50 *)
| PJustOneSpace                      (* rfc7230.py:55-59 *)
| PBadWhitespace                     (* rfc7230.py:63-67 *)
| PCollectElements                   (* rfc7230.py:71-76 *)
| PSingleton                         (* rfc7230.py:88 *)
| PEmptyParams                       (* rfc7230.py:116 *)
| PToDate                            (* rfc7231.py:57-64 *)
| PToTime                            (* rfc7231.py:83-93 *)
| PToDatetime                        (* rfc7231.py:103-106 *)
| PYear19                            (* rfc7231.py:134 *)
| PFromAsctime                       (* rfc7231.py:143-146 *)
| PObsoleteDate                      (* rfc7231.py:153-156 *)
| PCheckDayOfWeek                    (* rfc7231.py:161-168 *)
| PPrependQ                          (* rfc7231.py:194-195 *)
| PNoBackslashes                     (* rfc7232.py:13-17 *)
| PWellFormed1                       (* rfc7233.py:19-23 *)
| PSuffixRange                       (* rfc7233.py:32 *)
| PWellFormed2                       (* rfc7233.py:53-60 *)
| PCheckRealm                        (* rfc7235.py:15-20 *)
| PHSTSCollect                       (* rfc6797.py:16-17 *)
| PRemoveEmpty                       (* rfc7239.py:10-11 *)
| PNormalizeEmptyValue               (* rfc7240.py:9-14 *)
| PCheckProtocolId                   (* rfc7838.py:19-33 *)
| PCheckAltAuthority                 (* rfc7838.py:37-40 *)
| PForceBytes                        (* rfc8187.py:26 *)
| PPctDecode                         (* rfc8187.py:25 *)
| PCheckExtValue                     (* rfc8187.py:28-37 *)
| PProcessParams.                    (* rfc8288.py:15-44 *)

Definition pyf_dec (a b : pyf) : {a = b} + {a <> b}.
Proof. decide equality; apply (list_eq_dec N.eq_dec). Defined.

(** The functions given to [<<].  [FClass] is a class other than int, float,
    str. *)
Inductive func :=
| FSkipArgs                          (* httpolice/parse.py:661-662 *)
| FJoinArgs                          (* 664-665 *)
| FSubst (v : val)                   (* 667-670 *)
| FAsList                            (* 672-673 *)
| FBeginList                         (* 675-676 *)
| FContinueList                      (* 678-681 *)
| FJoin                              (* [u''.join], 574-587 *)
| FAdd                               (* [operator.add], 294-298 *)
| FMark (symbol : str)               (* 541-549 *)
| FInt
| FFloat
| FClass (cls : str)
| FPy (p : pyf).

Definition func_dec (a b : func) : {a = b} + {a <> b}.
Proof.
  decide equality; try apply (list_eq_dec N.eq_dec); try apply val_dec; apply pyf_dec.
Defined.

(** [Rule.action], as built by [concat] and [wrap]; [ANone] is [None]. *)
Inductive raction :=
| ANone
| AConcat (len1 : nat) (action1 action2 : raction)
| AWrap (f : func) (inner_action : raction).

Definition raction_dec (a b : raction) : {a = b} + {a <> b}.
Proof. decide equality; [apply Nat.eq_dec|apply func_dec]. Defined.

Definition is_vskip (v : val) : bool := match v with VSkip => true | _ => false end.

Section Actions.
(** What the functions of httpolice.syntax do: [pyfun p args] is the result
    and the complaints. *)
Variable pyfun : pyf -> list val -> val * list vcomplaint.

(** [u''.join(strings)]: fails if one is not a string. *)
Fixpoint join_vals (l : list val) : option str :=
  match l with
  | [] => Some []
  | VStr x :: l' => option_map (app x) (join_vals l')
  | _ => None
  end.

(** [int(s)] for a string of decimal digits; the actions apply it to nothing
    else (other strings accepted by Python's int are not modelled). *)
Fixpoint digits_val (acc : N) (x : str) : option N :=
  match x with
  | [] => Some acc
  | c :: x' => if (48 <=? c) && (c <=? 57) then digits_val (10 * acc + (c - 48)) x' else None
  end.

Definition int_of (x : str) : val :=
  match x with
  | [] => VBad
  | _ => match digits_val 0 x with Some n => VInt (Z.of_N n) | None => VBad end
  end.

(** Call a function on positional arguments. *)
Definition call_func (f : func) (args : list val) : val * list vcomplaint :=
  match f with
  | FSkipArgs => (VSkip, [])
  | FJoinArgs => (match join_vals args with Some x => VStr x | None => VBad end, [])
  | FSubst v => (v, [])
  | FAsList => (VList args, [])
  | FBeginList =>
      (match args with
       | [] => VBad
       | [x] => VList [x]
       | _ => VList [VTuple args]
       end, [])
  | FContinueList =>
      (match rev args with
       | [VList l; x] => VList (x :: l)
       | VList l :: y :: z :: rest => VList (VTuple (rev (y :: z :: rest)) :: l)
       | _ => VBad
       end, [])
  | FJoin =>
      (match args with
       | [VList l] => match join_vals l with Some x => VStr x | None => VBad end
       | _ => VBad
       end, [])
  | FAdd =>
      (match args with
       | [VStr a; VStr b] => VStr (a ++ b)
       | [VList a; VList b] => VList (a ++ b)
       | _ => VBad
       end, [])
  | FMark x =>
      (match args with [v] => VTuple [VStr x; v] | _ => VBad end, [])
  | FInt => (match args with [VStr x] => int_of x | _ => VBad end, [])
  | FFloat => (match args with [VStr x] => VFloat x | _ => VBad end, [])
  | FClass c => (VObj c args, [])
  | FPy p => pyfun p args
  end.

(** Run an action on a tuple of nodes (httpolice/parse.py:461-489). *)
Fixpoint run_action (a : raction) (nodes : list val) : list val * list vcomplaint :=
  match a with
  | ANone => (nodes, [])
  | AConcat len1 a1 a2 =>
      let (n1, c1) := run_action a1 (firstn len1 nodes) in
      let (n2, c2) := run_action a2 (skipn len1 nodes) in
      (n1 ++ n2, c1 ++ c2)
  | AWrap f inner =>
      let (n, c) := run_action inner nodes in
      let (r, c') := call_func f (filter (fun v => negb (is_vskip v)) n) in
      (if is_vskip r then [] else [r], c ++ c')
  end.
End Actions.

(** * Symbols *)

(** [name], [is_pivot], [_is_ephemeral] (httpolice/parse.py:180-201). *)
Record info := Info { i_name : option str; i_pivot : bool; i_eph : option bool }.

Definition info_dec (a b : info) : {a = b} + {a <> b}.
Proof.
  decide equality; [decide equality; apply bool_dec|apply bool_dec|decide equality; apply (list_eq_dec N.eq_dec)].
Defined.

(** [Terminal], [SimpleNonterminal], [RepeatedNonterminal]
    (httpolice/parse.py:304-437), and a reference to a recursive symbol.  A
    rule is its symbols and its action (440-489). *)
Inductive symbol :=
| Term (name : option str) (bits : N)
| Simple (i : info) (rules : list (list symbol * raction))
| Repeated (i : info) (max_count : option nat) (inner : symbol)
| Rec (name : str).

Definition rule : Type := list symbol * raction.

Fixpoint symbol_dec (a b : symbol) {struct a} : {a = b} + {a <> b}.
Proof.
  decide equality; try apply N.eq_dec; try apply info_dec; try (apply (list_eq_dec N.eq_dec)).
  - decide equality; apply (list_eq_dec N.eq_dec).
  - apply list_eq_dec. intros [x p] [y q].
    destruct (list_eq_dec symbol_dec x y) as [->|]; [|right; congruence].
    destruct (raction_dec p q) as [->|]; [left; reflexivity|right; congruence].
  - decide equality; apply Nat.eq_dec.
Defined.

Definition rule_dec (a b : rule) : {a = b} + {a <> b}.
Proof. decide equality; [apply raction_dec|apply (list_eq_dec symbol_dec)]. Defined.

(** No name, no citation, not a pivot, ephemeral by default. *)
Definition anon : info := Info None false None.

(** [Symbol.is_ephemeral] (httpolice/parse.py:226-243). *)
Definition info_ephemeral (i : info) : bool :=
  match i_eph i with
  | Some b => b
  | None => match i_name i with None => true | Some _ => false end
  end.

(** [Rule.concat], [Rule.wrap] (httpolice/parse.py:461-489). *)
Definition concat_action (len1 : nat) (a b : raction) : raction :=
  match a, b with
  | ANone, ANone => ANone
  | _, _ => AConcat len1 a b
  end.
Definition rule_concat (a b : rule) : rule :=
  (fst a ++ fst b, concat_action (List.length (fst a)) (snd a) (snd b)).
Definition rule_wrap (f : func) (a : rule) : rule := (fst a, AWrap f (snd a)).

(** [group] (httpolice/parse.py:318-319, 397-400, 419-420). *)
Definition group (x : symbol) : symbol :=
  match x with
  | Simple i rs => if info_ephemeral i then Simple (Info None false (Some false)) rs else x
  | _ => x
  end.

(** [as_rule], [as_rules] where the list of rules is at hand
    (httpolice/parse.py:321-325, 364-372).  A repetition is never ephemeral
    (413), and a recursive symbol is always named here. *)
Definition as_rule (x : symbol) : rule :=
  match x with
  | Simple i [r] => if info_ephemeral i then r else ([x], ANone)
  | _ => ([x], ANone)
  end.
Definition as_rules (x : symbol) : list rule :=
  match x with
  | Simple i rs => if info_ephemeral i then rs else [([x], ANone)]
  | _ => [([x], ANone)]
  end.

(** [as_nonterminal] (httpolice/parse.py:327-328, 374-375). *)
Definition as_nonterminal (x : symbol) : symbol :=
  match x with
  | Term _ _ => Simple anon (as_rules x)
  | _ => x
  end.

(** [empty] (httpolice/parse.py:500). *)
Definition empty : symbol := Simple (Info (Some (s "empty")) false (Some true)) [([], ANone)].

(** [Symbol.__or__] and [Terminal.__or__] (httpolice/parse.py:260-266,
    330-334). *)
Definition alt (a b : symbol) : symbol :=
  match a, b with
  | Term _ x, Term _ y => Term None (N.lor x y)
  | _, _ => Simple anon (as_rules a ++ as_rules b)
  end.

(** [Symbol.__mul__] (httpolice/parse.py:268-276). *)
Definition seq2 (a b : symbol) : symbol :=
  Simple anon [rule_concat (as_rule a) (as_rule b)].

(** Is the function a class other than int, float, str? *)
Definition is_class (f : func) : bool := match f with FClass _ => true | _ => false end.

(** [Symbol.__rlshift__] (httpolice/parse.py:278-292). *)
Definition wrap (f : func) (x : symbol) : symbol :=
  Simple (Info None false (if is_class f then Some false else None))
         (map (rule_wrap f) (as_rules x)).

(** [Symbol.__add__], [Symbol.__mod__] (httpolice/parse.py:294-301). *)
Definition add (a b : symbol) : symbol := wrap FAdd (seq2 a b).
Definition modl (a b : symbol) : symbol := wrap FContinueList (seq2 a b).

(** [Terminal.__sub__] (httpolice/parse.py:336-338). *)
Definition bits_of (x : symbol) : N := match x with Term _ b => b | _ => 0 end.
Definition minus (a b : symbol) : symbol :=
  Term None (N.lxor (bits_of a) (N.land (bits_of a) (bits_of b))).

(** [Symbol.__gt__] (httpolice/parse.py:207-224): a symbol that has a name
    already is wrapped in a new one. *)
Definition seal (name : str) (pivot : bool) (x : symbol) : symbol :=
  match x with
  | Term None b => Term (Some name) b
  | Simple (Info None _ e) rs => Simple (Info (Some name) pivot e) rs
  | Repeated (Info None _ e) m y => Repeated (Info (Some name) pivot e) m y
  | _ => Simple (Info (Some name) pivot None) [([x], ANone)]
  end.

(** [octet_range], [octet] (httpolice/parse.py:503-512). *)
Definition octet_range (min_ max_ : N) : symbol :=
  Term None (N.lxor (N.ones (max_ + 1)) (N.ones min_)).
Definition octet (v : N) : symbol := octet_range v v.

(** [s.lower()], [s.upper()] on an ASCII character. *)
Definition lower_c (c : N) : N := if (65 <=? c) && (c <=? 90) then c + 32 else c.
Definition upper_c (c : N) : N := if (97 <=? c) && (c <=? 122) then c - 32 else c.

(** [literal] (httpolice/parse.py:514-526), of an ASCII string. *)
Definition literal_c (case_sensitive : bool) (c : N) : symbol :=
  if case_sensitive then octet c else alt (octet (lower_c c)) (octet (upper_c c)).
Definition literal' (case_sensitive : bool) (x : str) : symbol :=
  match x with
  | [c] => literal_c case_sensitive c
  | _ => wrap FJoinArgs (fold_left (fun r c => seq2 r (literal_c case_sensitive c)) x empty)
  end.
Definition literal (x : str) : symbol := literal' false x.
Definition case_sens (x : str) : symbol := literal' true x.

(** [skip], [mark], [maybe], [maybe_str] (httpolice/parse.py:535-556). *)
Definition skip (x : symbol) : symbol := wrap FSkipArgs x.
Definition mark (name : str) (x : symbol) : symbol := wrap (FMark name) x.
Definition maybe (x : symbol) (default : val) : symbol := alt x (wrap (FSubst default) empty).
Definition maybe_str (x : symbol) : symbol := maybe x (VStr []).

(** [times] and its relatives (httpolice/parse.py:559-587). *)
Definition repeated (max_ : option nat) (x : symbol) : symbol :=
  Repeated (Info None false (Some false)) max_ x.
Fixpoint copies (n : nat) (r x : symbol) : symbol :=
  match n with O => r | S m => copies m (seq2 r (group x)) x end.
Definition times (min_ : nat) (max_ : option nat) (x : symbol) : symbol :=
  match min_ with
  | O => repeated max_ x
  | _ =>
      let min_rule := wrap FAsList (copies min_ empty x) in
      if match max_ with Some m => Nat.eqb m min_ | None => false end then min_rule
      else add min_rule (repeated (option_map (fun m => (m - min_)%nat) max_) x)
  end.
Definition string_times (min_ : nat) (max_ : option nat) (x : symbol) := wrap FJoin (times min_ max_ x).
Definition many (x : symbol) := times 0 None x.
Definition string_ (x : symbol) := wrap FJoin (many x).
Definition many1 (x : symbol) := times 1 None x.
Definition string1 (x : symbol) := wrap FJoin (many1 x).

(** [string_excluding] (httpolice/parse.py:590-622).  [initials] is a Python
    set, whose order is not specified: here it is the order of first
    occurrence.  The recursion is on a bound on the length of the words. *)
Fixpoint initials (l : list str) : list N :=
  match l with
  | [] => []
  | [] :: l' => initials l'
  | (c :: _) :: l' =>
      let rest := initials l' in
      if existsb (N.eqb (lower_c c)) rest then rest else lower_c c :: rest
  end.
Definition continuations (c : N) (l : list str) : list str :=
  flat_map (fun x => match x with d :: x' => if lower_c d =? c then [x'] else [] | [] => [] end) l.
Fixpoint excluding_ (fuel : nat) (terminal : symbol) (l : list str) : symbol :=
  match fuel with
  | O => terminal
  | S fuel' =>
      let inits := initials l in
      let free := fold_left (fun f c => minus f (literal_c false c)) inits terminal in
      let r := fold_left
                 (fun r c => alt r (add (literal_c false c) (excluding_ fuel' terminal (continuations c l))))
                 inits (add free (string_ terminal)) in
      if existsb (fun x => match x with [] => true | _ => false end) l then r
      else alt r (wrap (FSubst (VStr [])) empty)
  end.
Definition string_excluding (terminal : symbol) (l : list str) : symbol :=
  excluding_ (S (List.list_max (map (@List.length N) l))) terminal l.

(** * The grammar the parser sees *)

(** [RepeatedNonterminal.rules] (httpolice/parse.py:421-437).  For a bounded
    repetition [inner] is inlined if it is ephemeral. *)
Definition repeated_rules (i : info) (max_ : option nat) (inner : symbol) : list rule :=
  let nothing := wrap (FSubst (VList [])) empty in
  as_rules
    (match max_ with
     | None => alt nothing (seq2 (Repeated i max_ inner) (group inner))
     | Some (S (S m)) =>
         alt nothing (wrap FContinueList
                           (seq2 inner (Repeated (Info None false (Some false)) (Some (S m)) inner)))
     | Some _ => alt nothing (wrap FBeginList inner)
     end).

Section Grammar.
(** The rules of recursive symbols ([set_rules_from],
    httpolice/parse.py:402-405). *)
Variable rec_rules : str -> list rule.

(** [Nonterminal.rules]. *)
Definition rules_of (x : symbol) : list rule :=
  match x with
  | Term _ _ => []
  | Simple _ rs => rs
  | Repeated i m y => repeated_rules i m y
  | Rec n => rec_rules n
  end.

Definition to_sym (x : symbol) : sym symbol :=
  match x with Term _ b => Tm b | _ => Nt x end.

Definition is_repeated (x : symbol) : bool :=
  match x with Repeated _ _ _ => true | _ => false end.
Definition is_pivot (x : symbol) : bool :=
  match x with Simple i _ | Repeated i _ _ => i_pivot i | _ => false end.

Definition sgrammar : grammar :=
  @Grammar symbol rule symbol_dec rule_dec rules_of (fun r => map to_sym (fst r)) is_repeated is_pivot.

End Grammar.
