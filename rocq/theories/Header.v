(** Header views: how the entries of a message with the same name become one
    value (httpolice/header.py). *)
From Coq Require Import ZifyBool ZifyNat ZifyN String.
From Verif Require Import Base Earley Grammar Syntax Actions Structure Known.
Open Scope nat_scope.
Open Scope list_scope.
Unset Strict Implicit.

(** A [HeaderEntry] (httpolice/structure.py:208-224): name and value. *)
Record entry := Entry { e_name : str; e_value : str }.
(** What the views need of a message (httpolice/message.py): its header and
    trailer entries.  The model has no [None] for trailers: [entries or []]
    makes it an empty list. *)
Record entries := Entries { header_entries : list entry; trailer_entries : list entry }.

(** Where an entry is: whether in the trailer, and its index there. *)
Definition place : Type := bool * nat.
(** The arguments of a complaint: a value, an entry, several entries, or a
    header view (identified by its name in lower case). *)
Inductive arg := AVal (v : val) | AEntry (p : place) | AEntries (l : list place) | AHeader (name : str).
(** The arguments of [complain()]: id and context (httpolice/blackboard.py:64-72). *)
Definition notice : Type := N * list (str * arg).

(** What stands for the exception in a complaint that [parse()] makes
    (httpolice/parse.py:106-113). *)
Definition error_arg : str * arg := (s "error", AVal (VObj (s "ParseError") [])).

(** ** Looking up knowledge (httpolice/known/__init__.py:54-66) *)

(** [raw_by_key.get(key)] with case-insensitive keys. *)
Fixpoint find_header (t : list header_info) (name : str) : option header_info :=
  match t with
  | [] => None
  | i :: t' => if ci_eq (hk_key i) name then Some i else find_header t' name
  end.
Definition header_of (name : str) : option header_info := find_header header_table name.
(** [self.get(key).get(field)] with absence as [None] or false
    (httpolice/known/__init__.py:170-171, 212-239). *)
Definition syntax_for (name : str) : option symbol := match header_of name with Some i => hk_syntax i | None => None end.
Definition rule_for (name : str) : option header_rule := match header_of name with Some i => hk_rule i | None => None end.
Definition flag_of (f : header_info -> bool) (name : str) : bool := match header_of name with Some i => f i | None => false end.
Definition is_bad_for_trailer : str -> bool := flag_of hk_bad_for_trailer.

(** Keys of arguments: [ci] for subclasses of [CaseInsensitive]; [AltSvcParam]
    is a plain [ProtocolString] (httpolice/structure.py:331-402). *)
Fixpoint find_arg (ci : bool) (t : list arg_info) (name : str) : option arg_info :=
  match t with
  | [] => None
  | i :: t' => if (if ci then ci_eq (ak_key i) name else str_eqb (ak_key i) name) then Some i else find_arg ci t' name
  end.

(** ** Enumerating entries *)

(** [enumerate(entries)] filtered by name (httpolice/header.py:84-92).  Names
    are [FieldName]s and compare without case. *)
Fixpoint number {A} (i : nat) (l : list A) : list (nat * A) :=
  match l with [] => [] | x :: l' => (i, x) :: number (S i) l' end.
Definition named (name : str) (x : nat * entry) : bool := ci_eq name (e_name (snd x)).
Definition enumerate (m : entries) (name : str) : list (place * entry) :=
  map (fun x => ((false, fst x), snd x)) (filter (named name) (number 0 (header_entries m))) ++
  map (fun x => ((true, fst x), snd x)) (filter (named name) (number 0 (trailer_entries m))).

(** ** View classes *)

(** The classes decorated with [special_case] (httpolice/header.py:373-482). *)
Inductive special := CacheControlView | StrictTransportSecurityView | AltSvcView | PreferView | PreferenceAppliedView | ForwardedView.
Inductive view_class := UnknownView | SingleView | MultiView | SpecialView (c : special).
Definition special_cases : list (str * special) := [
  (s "Cache-Control", CacheControlView);
  (s "Strict-Transport-Security", StrictTransportSecurityView);
  (s "Alt-Svc", AltSvcView);
  (s "Prefer", PreferView);
  (s "Preference-Applied", PreferenceAppliedView);
  (s "Forwarded", ForwardedView)].
Fixpoint find_special (t : list (str * special)) (name : str) : option special :=
  match t with [] => None | (k, c) :: t' => if ci_eq k name then Some c else find_special t' name end.

(** The class chosen by [HeadersView.__getitem__] (httpolice/header.py:47-69);
    [None] is [AssertionError]. *)
Definition class_of (name : str) : option view_class :=
  match find_special special_cases name, rule_for name with
  | Some c, Some RSpecial => Some (SpecialView c)
  | Some _, _ => None
  | None, Some RSpecial => None
  | None, Some RSingle => Some SingleView
  | None, Some RMulti => Some MultiView
  | None, None => Some UnknownView
  end.

(** ** Values *)

(** Texts inside a value that [_check_quoted_delims] looks at
    (httpolice/header.py:158-180).  Instances are searched through their
    arguments: subclasses of [str] hold a text, named tuples and [MultiDict]
    hold elements, others hold no texts.  [Unavailable] is not searched. *)
Fixpoint texts (v : val) : list str :=
  match v with
  | VStr x => [x]
  | VList l | VTuple l | VObj _ l => flat_map texts l
  | _ => []
  end.
Definition check_quoted_delims (name : str) (p : place) (v : val) : list notice :=
  let comma := flag_of hk_quoted_comma_bad name in
  let semicolon := flag_of hk_quoted_semicolon_bad name in
  flat_map (fun x : str =>
    (if comma && existsb (N.eqb 44) x then [(1299%N, [(s "entry", AEntry p)])] else []) ++
    (if semicolon && existsb (N.eqb 59) x then [(1300%N, [(s "entry", AEntry p)])] else [])) (texts v).

(** Unpacking a pair: tuples and [Parametrized].  [None] is the exception when
    something else is unpacked. *)
Definition unpack2 (v : val) : option (val * val) :=
  match v with
  | VTuple [a; b] => Some (a, b)
  | VObj c [a; b] => if str_eqb c (s "Parametrized") then Some (a, b) else None
  | _ => None
  end.
(** The text of an instance of a subclass of [str]. *)
Definition text_of (v : val) : str := match v with VObj _ [VStr x] => x | VStr x => x | _ => [] end.

(** [isinstance(v, Unavailable)]; [isinstance(v, list)]. *)
Definition is_unavailable (v : val) : bool := match v with VUnavailable _ => true | _ => false end.
Definition is_list (v : val) : bool := match v with VList _ => true | _ => false end.
(** [okay()] (httpolice/structure.py:51-53). *)
Definition okay_value (v : val) : bool := match v with VNone | VUnavailable _ => false | _ => true end.

(** [duplicates()] on names (httpolice/util/data.py:1-12) up to case, as a list
    of the names at their second and later occurrences, each once. *)
Fixpoint dup_names (seen dup : list str) (l : list str) : list str :=
  match l with
  | [] => []
  | x :: l' =>
      if existsb (ci_eq x) seen
      then (if existsb (ci_eq x) dup then dup_names seen dup l' else x :: dup_names seen (x :: dup) l')
      else dup_names (x :: seen) dup l'
  end.

Section Views.
(** [parse()] without the message: the value and the complaints of a string
    under a symbol, or [None] if it cannot be parsed. *)
Variable read : symbol -> str -> option (val * list vcomplaint).

(** A complaint of the grammar, with the entry as its [place]. *)
Definition placed (p : place) (extra : list (str * arg)) (c : vcomplaint) : notice :=
  (fst c, (s "place", AEntry p) :: extra ++ map (fun kv => (fst kv, AVal (snd kv))) (snd c)).

(** [ArgumentsView._process_pair] (httpolice/header.py:340-355). *)
Definition process_pair (ci : bool) (t : list arg_info) (p : place) (name argument : val) : val * list notice :=
  let info := find_arg ci t (text_of name) in
  let requirement := match info with Some i => ak_argument i | None => None end in
  match argument with
  | VNone =>
      match requirement with
      | Some ArgRequired => (parametrized name (VUnavailable (VStr [])), [(1156%N, [(s "entry", AEntry p); (s "name", AVal name)])])
      | _ => (parametrized name VNone, [])
      end
  | _ =>
      match requirement with
      | Some ArgNo => (parametrized name (VUnavailable argument), [(1157%N, [(s "entry", AEntry p); (s "name", AVal name)])])
      | _ =>
          match match info with Some i => ak_syntax i | None => None end with
          | Some x =>
              match read x (text_of argument) with
              | Some (v, cs) => (parametrized name v, map (placed p [(s "name", AVal name); (s "value", AVal argument)]) cs)
              | None => (parametrized name (VUnavailable (VBytes (text_of argument))),
                         [(1158%N, [error_arg; (s "place", AEntry p); (s "name", AVal name); (s "value", AVal argument)])])
              end
          | None => (parametrized name argument, [])
          end
      end
  end.

(** [name, argument = pair] before it; [VBad] is the exception. *)
Definition process_arguments (ci : bool) (t : list arg_info) (p : place) (pr : val) : val * list notice :=
  match unpack2 pr with
  | Some (name, argument) => process_pair ci t p name argument
  | None => (VBad, [])
  end.

(** [CacheControlView._process_pair] (httpolice/header.py:378-394).  A symbol is
    known by its name. *)
Definition process_directive (p : place) (pr : val) : val * list notice :=
  match unpack2 pr with
  | Some (name, VNone) => process_pair true cache_directive_table p name VNone
  | Some (name, VTuple [VStr symbol; argument]) =>
      let form := match find_arg true cache_directive_table (text_of name) with Some i => ak_form i | None => None end in
      let wrong :=
        match form with
        | Some FormQuotedString => if str_eqb symbol (s "quoted-string") then [] else [(1154%N, [(s "directive", AVal name)])]
        | Some FormToken => if str_eqb symbol (s "token") then [] else [(1155%N, [(s "directive", AVal name)])]
        | None => []
        end in
      let (v, ns) := process_pair true cache_directive_table p name argument in (v, wrong ++ ns)
  | _ => (VBad, [])
  end.

(** Doing something to every element of a list, complaining in order. *)
Fixpoint each (f : val -> val * list notice) (l : list val) : list val * list notice :=
  match l with
  | [] => ([], [])
  | v :: l' => let (v', ns) := f v in let (vs, ns') := each f l' in (v' :: vs, ns ++ ns')
  end.
(** Iterating over a value that must be a list. *)
Definition each_of (f : val -> val * list notice) (v : val) : val * list notice :=
  match v with
  | VList l => let (vs, ns) := each f l in (VList vs, ns)
  | _ => (VBad, [])
  end.

(** [AltSvcView._process_parsed] (httpolice/header.py:411-420), for one
    alternative. *)
Definition process_alternative (p : place) (v : val) : val * list notice :=
  match v with
  | VObj c [item; VObj d [VList params]] =>
      let (vs, ns) := each (process_arguments false alt_svc_param_table p) params in
      (VObj c [item; VObj d [VList vs]], ns)
  | _ => (VBad, [])
  end.

(** [PreferView._process_parsed] (httpolice/header.py:433-435), for one
    preference. *)
Definition process_preference (p : place) (v : val) : val * list notice :=
  match unpack2 v with
  | Some (pr, params) => let (v', ns) := process_arguments true preference_table p pr in (parametrized v' params, ns)
  | None => (VBad, [])
  end.

(** The parameter names of a processed forwarded-element. *)
Definition element_names (elem : val) : list (val * str) :=
  match elem with
  | VList pairs => map (fun pr => match unpack2 pr with Some (n, _) => (n, text_of n) | None => (VBad, []) end) pairs
  | _ => []
  end.
(** [ForwardedView._process_parsed] (httpolice/header.py:463-482).  The name
    reported by 1296 is given by its text. *)
Definition check_elements (p : place) (elements : list val) : list notice :=
  flat_map (fun elem =>
    map (fun n => (1296%N, [(s "entry", AEntry p); (s "param", AVal (VObj (s "ForwardedParam") [VStr n]))]))
      (dup_names [] [] (map snd (element_names elem)))) elements ++
  (if Nat.ltb 1 (List.length elements) && forallb (fun elem => Nat.eqb (List.length (element_names elem)) 1) elements
   then match dup_names [] [] (flat_map (fun elem => map snd (element_names elem)) elements) with
        | [] => [(1297%N, [(s "entry", AEntry p); (s "n_elements", AVal (VInt (Z.of_nat (List.length elements))))])]
        | _ => []
        end
   else []).

(** [_process_parsed] of each class (httpolice/header.py:126-128, 337-338 and
    the special classes). *)
Definition process_parsed (c : view_class) (p : place) (v : val) : val * list notice :=
  match c with
  | SpecialView CacheControlView => each_of (process_directive p) v
  | SpecialView StrictTransportSecurityView => each_of (process_arguments true hsts_directive_table p) v
  | SpecialView AltSvcView =>
      match v with
      | VStr x => if str_eqb x (s "clear") then (v, []) else (VBad, [])
      | _ => each_of (process_alternative p) v
      end
  | SpecialView PreferView => each_of (process_preference p) v
  | SpecialView PreferenceAppliedView => each_of (process_arguments true preference_table p) v
  | SpecialView ForwardedView =>
      let (v', ns) := each_of (each_of (process_arguments true forwarded_param_table p)) v in
      match v' with
      | VList elements => (v', ns ++ check_elements p elements)
      | _ => (VBad, [])
      end
  | _ => (v, [])
  end.

(** Reading one entry: the body of the loop of [_pre_parse]
    (httpolice/header.py:135-150) after the check of trailers.  Annotations
    are left out. *)
Definition read_entry (c : view_class) (name : str) (p : place) (e : entry) : val * list notice :=
  match syntax_for name with
  | None => (VBytes (e_value e), [])
  | Some x =>
      match read x (e_value e) with
      | None => (VUnavailable (VBytes (e_value e)), [(1000%N, [error_arg; (s "place", AEntry p)])])
      | Some (v, cs) =>
          if is_unavailable v then (v, map (placed p []) cs)
          else
            let (v', ns) := process_parsed c p v in
            (v', map (placed p []) cs ++ ns ++ check_quoted_delims name p v')
      end
  end.

(** [HeaderView._pre_parse] (httpolice/header.py:130-151). *)
Fixpoint pre_parse (c : view_class) (name : str) (items : list (place * entry)) : list (place * entry) * list val * list notice :=
  match items with
  | [] => ([], [], [])
  | (p, e) :: items' =>
      let '(es, vs, ns) := pre_parse c name items' in
      if fst p && is_bad_for_trailer name then (es, vs, (1026%N, [(s "entry", AEntry p)]) :: ns)
      else let (v, ns1) := read_entry c name p e in ((p, e) :: es, v :: vs, ns1 ++ ns)
  end.

(** A parsed view: [_entries], [_value], and the notices that parsing it
    reported. *)
Record view := View { v_entries : list (place * entry); v_value : val; v_notices : list notice }.

(** [b','.join(values)]; [VBad] is the exception for values that are not bytes. *)
Fixpoint join_bytes (vs : list val) : val :=
  match vs with
  | [] => VBad
  | [VBytes x] => VBytes x
  | VBytes x :: vs' => match join_bytes vs' with VBytes y => VBytes (x ++ 44%N :: y) | _ => VBad end
  | _ => VBad
  end.
(** [UnknownHeaderView._parse] (httpolice/header.py:270-275). *)
Definition parse_unknown (es : list (place * entry)) (vs : list val) : list (place * entry) * val * list notice :=
  (es, match vs with [] => VNone | _ => join_bytes vs end, []).
(** [SingleHeaderView._parse] (httpolice/header.py:282-291). *)
Definition parse_single (name : str) (es : list (place * entry)) (vs : list val) : list (place * entry) * val * list notice :=
  match rev es, rev vs with
  | e :: _, v :: _ =>
      ([e], v, if Nat.ltb 1 (List.length es) then [(1013%N, [(s "header", AHeader (lower name)); (s "entries", AEntries (map fst es))])] else [])
  | _, _ => ([], VNone, [])
  end.
(** [MultiHeaderView._parse] (httpolice/header.py:298-320). *)
Definition extend (vs : list val) : list val :=
  flat_map (fun v => match v with VList l => l | _ => [v] end) vs.
Definition parse_multi (name : str) (es : list (place * entry)) (vs : list val) : list (place * entry) * val * list notice :=
  match filter (fun v => negb (is_list v || is_unavailable v)) vs with
  | [] => (es, VList (extend vs), [])
  | v :: singular =>
      if Nat.eqb (List.length singular) 0 && Nat.eqb (List.length es) 1 then (es, v, [])
      else (es, VList [VUnavailable VNone], [(1013%N, [(s "header", AHeader (lower name)); (s "entries", AEntries (map fst es))])])
  end.
Definition combine_entries (c : view_class) : str -> list (place * entry) -> list val -> list (place * entry) * val * list notice :=
  match c with
  | UnknownView => fun _ => parse_unknown
  | SingleView | SpecialView StrictTransportSecurityView => parse_single
  | MultiView | SpecialView _ => parse_multi
  end.

(** [_parse] of a view of class [c]. *)
Definition parse_view (c : view_class) (m : entries) (name : str) : view :=
  let '(es, vs, ns) := pre_parse c name (enumerate m name) in
  let '(es', v, ns') := combine_entries c name es vs in
  View es' v (ns ++ ns').

(** The state of a [HeadersView]: [_cache], with views parsed when they are
    first needed (httpolice/header.py:43-69, 182-200).  The model parses a view
    when it is first looked up.  [None] is [AssertionError]. *)
Definition cache : Type := list (str * view).
Fixpoint find_view (k : cache) (name : str) : option view :=
  match k with [] => None | (n, v) :: k' => if ci_eq n name then Some v else find_view k' name end.
Definition lookup (m : entries) (k : cache) (name : str) : option (cache * view * list notice) :=
  match find_view k name with
  | Some v => Some (k, v, [])
  | None =>
      match class_of name with
      | Some c => let v := parse_view c m name in Some ((name, v) :: k, v, v_notices v)
      | None => None
      end
  end.
(** Any number of lookups, by one message: the views seen and the notices
    reported. *)
Fixpoint lookups (m : entries) (k : cache) (names : list str) : option (list view * list notice) :=
  match names with
  | [] => Some ([], [])
  | n :: names' =>
      match lookup m k n with
      | Some (k', v, ns) =>
          match lookups m k' names' with
          | Some (vs, ns') => Some (v :: vs, ns ++ ns')
          | None => None
          end
      | None => None
      end
  end.

(** [HeadersView.names] and [__iter__] (httpolice/header.py:71-82). *)
Fixpoint names_from (seen : list str) (l : list entry) : list str :=
  match l with
  | [] => []
  | e :: l' => if existsb (ci_eq (e_name e)) seen then names_from seen l' else e_name e :: names_from (e_name e :: seen) l'
  end.
Definition names (m : entries) : list str := names_from [] (header_entries m ++ trailer_entries m).

(** ** Using a view *)

(** [is_present] and [is_okay] (httpolice/header.py:194-204). *)
Definition is_present (v : view) : bool := match v_entries v with [] => false | _ => true end.
Definition is_okay (v : view) : bool := okay_value (v_value v).
(** [MultiHeaderView.__iter__] (httpolice/header.py:322-323), for lists. *)
Definition iterate (v : view) : list val := match v_value v with VList l => filter okay_value l | _ => [] end.

(** [DirectivesView.__getitem__] (httpolice/header.py:365-369) for
    multi-valued headers: [key] by its text; directive names ignore case. *)
Fixpoint first_directive (key : str) (l : list val) : val :=
  match l with
  | [] => VNone
  | d :: l' =>
      match unpack2 d with
      | Some (n, a) => if ci_eq (text_of n) key then match a with VNone => VBool true | _ => a end else first_directive key l'
      | None => VBad
      end
  end.
Definition directive (v : view) (key : str) : val := first_directive key (iterate v).
(** [PreferView.without_params] and [__getitem__] (httpolice/header.py:437-445). *)
Definition preference (v : view) (key : str) : val :=
  first_directive key (map (fun d => match unpack2 d with Some (p, _) => p | None => VBad end) (iterate v)).

End Views.

(** ** Comparisons (httpolice/header.py:219-259) *)

Inductive comparison := OpLt | OpLe | OpEq | OpNe | OpGe | OpGt.
(** The right operand: another header view (identified by message and name), or
    any value. *)
Inductive operand := OHeader (msg : nat) (name : str) | OValue (v : val).
Inductive truth := Truth (b : bool) | TypeError.
(** [_compare] and what Python makes of [NotImplemented]: equality falls back to
    identity, ordering is a [TypeError].  [op] is Python's comparison of
    values. *)
Definition compare (op : comparison -> val -> val -> truth) (o : comparison) (msg : nat) (name : str) (v : view) (other : operand) : truth :=
  match other with
  | OHeader msg' name' =>
      let same := Nat.eqb msg msg' && ci_eq name name' in
      match o with
      | OpEq => Truth same
      | OpNe => Truth (negb same)
      | _ => TypeError
      end
  | OValue w => if is_okay v then (if okay_value w then op o (v_value v) w else Truth false) else Truth false
  end.
