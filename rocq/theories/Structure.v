(** Model of the small classes of httpolice/structure.py, and of
    httpolice/helpers.py. *)
From Coq Require Import ZifyBool ZifyNat ZifyN.
From Verif Require Import Base Text.
Open Scope nat_scope.
Unset Strict Implicit.

(** * [MultiDict] (httpolice/structure.py:73-128) *)

Section MultiDict.
Context {K V : Type}.
(** [==] of keys, with which hashing is compatible. *)
Variable keq : K -> K -> bool.
(** [self.sequence]. *)
Definition multidict : Type := list (K * V).

(** [r.setdefault(k, []).append(v)] on an insertion-ordered dictionary. *)
Fixpoint add_to (r : list (K * list V)) (k : K) (v : V) : list (K * list V) :=
  match r with
  | [] => [(k, [v])]
  | (k', vs) :: r' => if keq k' k then (k', vs ++ [v]) :: r' else (k', vs) :: add_to r' k v
  end.
(** [dictionary] (httpolice/structure.py:84-92). *)
Definition dictionary (d : multidict) : list (K * list V) :=
  fold_left (fun r kv => add_to r (fst kv) (snd kv)) d [].
(** Lookup in a dictionary. *)
Fixpoint look (r : list (K * list V)) (k : K) : option (list V) :=
  match r with
  | [] => None
  | (k', vs) :: r' => if keq k' k then Some vs else look r' k
  end.

(** [d[name]] (httpolice/structure.py:105-106): [None] is [KeyError]. *)
Definition getitem (d : multidict) (k : K) : option V :=
  match look (dictionary d) k with
  | Some (v :: _) => Some v
  | _ => None
  end.
(** [name in d] (108-109). *)
Definition contains (d : multidict) (k : K) : bool :=
  match look (dictionary d) k with Some _ => true | None => false end.
(** [iter(d)] (111-112). *)
Definition iter (d : multidict) : list K := map fst (dictionary d).
(** [d.get(name, default)] (117-118). *)
Definition get (d : multidict) (k : K) (default : V) : option V :=
  if contains d k then getitem d k else Some default.
(** [d.getall(name)] (120-121). *)
Definition getall (d : multidict) (k : K) : list V :=
  match look (dictionary d) k with Some vs => vs | None => [] end.
(** [d.duplicates()] (123-124). *)
Definition dup_keys (d : multidict) : list K :=
  flat_map (fun e => if 1 <? List.length (snd e) then [fst e] else []) (dictionary d).
(** [d.index(name)] (126-127): [None] is [ValueError]. *)
Fixpoint index (d : multidict) (k : K) : option nat :=
  match d with
  | [] => None
  | (k', _) :: d' => if keq k' k then Some 0 else option_map S (index d' k)
  end.
End MultiDict.

(** * [CaseInsensitive] (httpolice/structure.py:148-169) *)

(** [str.lower] on ISO-8859-1, which is what messages are decoded from
    (httpolice/framing1.py:258): A to Z, and the letters from 192 to 222 without the
    multiplication sign.  Characters above 255 are left as they are. *)
Definition is_upper (c : N) : bool := ((65 <=? c) && (c <=? 90) || (192 <=? c) && (c <=? 222) && negb (c =? 215))%N.
Definition lower1 (c : N) : N := if is_upper c then (c + 32)%N else c.
Definition lower (x : str) : str := map lower1 x.
Definition ci_eq (a b : str) : bool := str_eqb (lower a) (lower b).
(** [a.startswith(b)] of plain strings. *)
Fixpoint starts_with (a b : str) : bool :=
  match b, a with
  | [], _ => true
  | y :: b', x :: a' => (x =? y)%N && starts_with a' b'
  | _, [] => false
  end.
Definition ends_with (a b : str) : bool := starts_with (rev a) (rev b).
Definition ci_startswith (a b : str) : bool := starts_with (lower a) (lower b).
Definition ci_endswith (a b : str) : bool := ends_with (lower a) (lower b).

(** Python strings in the program are plain ones or case-insensitive ones. *)
Inductive pystr := Plain (x : str) | CI (x : str).
(** [a == b]: if either is case-insensitive its method decides, because the
    class is a subclass of [str] (httpolice/structure.py:152-155). *)
Definition py_eq (a b : pystr) : bool :=
  match a, b with
  | Plain x, Plain y => str_eqb x y
  | CI x, CI y | CI x, Plain y | Plain x, CI y => ci_eq x y
  end.
(** [hash(a)], given the hash function of plain strings
    (httpolice/structure.py:160-161). *)
Definition py_hash (h : str -> N) (a : pystr) : N :=
  match a with Plain x => h x | CI x => h (lower x) end.

(** * [okay], [Unavailable] (httpolice/structure.py:13-52) *)

(** A value that can be absent, or be present without a useful representation. *)
Inductive avail (A I : Type) := Absent | Unavail (inner : option I) | Avail (v : A).
Arguments Absent {A I}.
Arguments Unavail {A I} inner.
Arguments Avail {A I} v.
Definition okay {A I} (x : avail A I) : bool := match x with Avail _ => true | _ => false end.

(** * Helpers (httpolice/helpers.py) *)

(** [r[name] = value] on an insertion-ordered dictionary. *)
Fixpoint assign {V} (r : list (str * V)) (k : str) (v : V) : list (str * V) :=
  match r with
  | [] => [(k, v)]
  | (k', w) :: r' => if str_eqb k' k then (k', v) :: r' else (k', w) :: assign r' k v
  end.
(** [pop_pseudo_headers] (httpolice/helpers.py:9-32): what is left of the list,
    and the dictionary returned.  The index only goes forward, so the loop is
    a recursion on the list. *)
Fixpoint pop_pseudo {V} (entries : list (str * V)) (r : list (str * V)) : list (str * V) * list (str * V) :=
  match entries with
  | [] => ([], r)
  | (name, value) :: entries' =>
      if starts_with name (s ":") then pop_pseudo entries' (assign r name value)
      else let (left, r') := pop_pseudo entries' r in ((name, value) :: left, r')
  end.
Definition pop_pseudo_headers {V} (entries : list (str * V)) := pop_pseudo entries [].

(** [x.title()] on ASCII: a letter is upper-case exactly when it does not
    follow a letter. *)
Definition upper1 (c : N) : N := if ((97 <=? c) && (c <=? 122))%N then (c - 32)%N else c.
Fixpoint title_from (after_letter : bool) (x : str) : str :=
  match x with
  | [] => []
  | c :: x' => (if after_letter then lower1 c else upper1 c) :: title_from (is_letter c) x'
  end.
Definition title (x : str) : str := title_from false x.
(** [x.split(sep)] for a single character. *)
Fixpoint split_c (sep : N) (x : str) : list str :=
  match x with
  | [] => [[]]
  | c :: x' =>
      match split_c sep x' with
      | [] => [[]]
      | w :: ws => if (c =? sep)%N then [] :: w :: ws else (c :: w) :: ws
      end
  end.
Definition http_prefix : str := s "HTTP_".
(** [_header_name_from_cgi] (httpolice/helpers.py:58-62). *)
Definition header_name_from_cgi (n : str) : str :=
  let n' := if starts_with n http_prefix then skipn (List.length http_prefix) n else n in
  join (s "-") (map title (split_c 95 n')).
(** [headers_from_cgi] (httpolice/helpers.py:35-55), of a dictionary of strings
    given in its order of iteration; values are strings already. *)
Fixpoint env_get (env : list (str * str)) (k : str) : option str :=
  match env with
  | [] => None
  | (k', v) :: env' => if str_eqb k' k then Some v else env_get env' k
  end.
Definition default_names : list str := [s "HTTP_HOST"; s "CONTENT_LENGTH"; s "CONTENT_TYPE"].
Definition truthy (v : option str) : bool := match v with Some (_ :: _) => true | _ => false end.
Definition cgi_names (env : list (str * str)) : list str :=
  fold_left (fun names n => if starts_with n http_prefix && negb (existsb (str_eqb n) names)
                            then names ++ [n] else names)
            (map fst env) (filter (fun n => truthy (env_get env n)) default_names).
Definition headers_from_cgi (env : list (str * str)) : list (str * str) :=
  map (fun n => (header_name_from_cgi n, match env_get env n with Some v => v | None => [] end)) (cgi_names env).
