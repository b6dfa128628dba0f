(** Model of httpolice/util/text.py and httpolice/util/data.py. *)
From Coq Require Import ZifyBool ZifyNat ZifyN Permutation.
From Verif Require Import Base.
Open Scope nat_scope.
Unset Strict Implicit.

(** [duplicates] (httpolice/util/data.py:4-10).  A [Counter] is a dictionary
    from elements to counts, in the order in which the elements first occurred;
    [eqb] is [==] of elements, with which hashing is compatible. *)
Section Duplicates.
Context {A : Type}.
Variable eqb : A -> A -> bool.
Fixpoint count_in (x : A) (counter : list (A * nat)) : list (A * nat) :=
  match counter with
  | [] => [(x, 1)]
  | (y, n) :: counter' => if eqb y x then (y, S n) :: counter' else (y, n) :: count_in x counter'
  end.
Definition counter (xs : list A) : list (A * nat) := fold_left (fun c x => count_in x c) xs [].
Definition duplicates (xs : list A) : list A :=
  flat_map (fun xn => if 1 <? snd xn then [fst xn] else []) (counter xs).
End Duplicates.

(** * Strings *)

(** [nicely_join] (httpolice/util/text.py:25-44). *)
Fixpoint nicely_join_from (i n : nat) (l : list str) : str :=
  match l with
  | [] => []
  | x :: l' =>
      (if Nat.eqb i (n - 1) then (if 2 <? n then s "and " else if 1 <? n then s " and " else []) else [])
      ++ x
      ++ (if (2 <? n) && (i <? n - 1) then s ", " else [])
      ++ nicely_join_from (S i) n l'
  end.
Definition nicely_join (l : list str) : str := nicely_join_from 0 (List.length l) l.

(** The code points that [printable] replaces (httpolice/util/text.py:181-193). *)
Definition unprintable (c : N) : bool :=
  (c <=? 8)%N || (c =? 11)%N || (c =? 12)%N || ((14 <=? c) && (c <=? 31))%N
  || ((127 <=? c) && (c <=? 159))%N || ((55296 <=? c) && (c <=? 57343))%N
  || ((64976 <=? c) && (c <=? 65007))%N || (c =? 65534)%N || (c =? 65535)%N.
Definition replacement : N := 65533.
(** [printable] (httpolice/util/text.py:181-193): [re.sub] of a class of single
    characters by a single character. *)
Definition printable (x : str) : str := map (fun c => if unprintable c then replacement else c) x.

(** [x[:n]]; a negative [n] counts from the end. *)
Definition slice_to (x : str) (n : Z) : str :=
  if (n <? 0)%Z then firstn (List.length x - Z.to_nat (- n)) x else firstn (Z.to_nat n) x.
(** [ellipsize] (httpolice/util/text.py:149-159). *)
Definition ellipsize (x : str) (max_length : Z) : str :=
  if (Z.of_nat (List.length x) <=? max_length)%Z then x
  else slice_to x (max_length - 3) ++ s "...".

(** * Descriptions of sets of characters *)

(** [_char_ranges] (httpolice/util/text.py:47-66): the loop that collects
    intervals. *)
Fixpoint intervals (cur : option (N * N)) (chars : list N) : list (N * N) :=
  match chars with
  | [] => match cur with Some i => [i] | None => [] end
  | c :: chars' =>
      match cur with
      | Some (lo, hi) => if (hi + 1 =? c)%N then intervals (Some (lo, c)) chars'
                         else (lo, hi) :: intervals (Some (c, c)) chars'
      | None => intervals (Some (c, c)) chars'
      end
  end.
(** [u'%#04x' % point] for [point] below 256, and [chr]. *)
Definition hex_c (d : N) : N := if (d <? 10)%N then (48 + d)%N else (87 + d)%N.
Definition show_hex (c : N) : str := [48; 120; hex_c (c / 16); hex_c (c mod 16)]%N.
Definition show_chr (c : N) : str := [c].
(** The en dash. *)
Definition endash : N := 8211.
Definition show_interval (show : N -> str) (i : N * N) : str :=
  if (fst i =? snd i)%N then show (fst i) else show (fst i) ++ [endash] ++ show (snd i).
Definition char_ranges (show : N -> str) (chars : list N) : list str :=
  map (show_interval show) (intervals None chars).

(** [CHAR_NAMES] (httpolice/util/text.py:7-19). *)
Definition char_names : list (N * str) :=
  [(9, s "tab"); (10, s "LF"); (13, s "CR"); (32, s "space"); (34, s "double quote ("")");
   (39, s "single quote (')"); (44, s "comma (,)"); (46, s "period (.)"); (58, s "colon (:)");
   (59, s "semicolon (;)"); (45, s "dash (-)")]%N.
Definition char_name (c : N) : option str :=
  option_map snd (find (fun e => N.eqb (fst e) c) char_names).
Definition is_letter (c : N) : bool := ((65 <=? c) && (c <=? 90) || ((97 <=? c) && (c <=? 122)))%N.
Definition is_digit (c : N) : bool := ((48 <=? c) && (c <=? 57))%N.
Inductive category := Letter | Digit | Named (name : str) | Visible | Other.
(** The chain of conditions (httpolice/util/text.py:88-98). *)
Definition category_of (c : N) : category :=
  if is_letter c then Letter
  else if is_digit c then Digit
  else match char_name c with
       | Some n => Named n
       | None => if ((33 <=? c) && (c <? 127))%N then Visible else Other
       end.
Definition letters (l : list N) := filter (fun c => match category_of c with Letter => true | _ => false end) l.
Definition digits (l : list N) := filter (fun c => match category_of c with Digit => true | _ => false end) l.
Definition named (l : list N) := filter (fun c => match category_of c with Named _ => true | _ => false end) l.
Definition visibles (l : list N) := filter (fun c => match category_of c with Visible => true | _ => false end) l.
Definition others (l : list N) := filter (fun c => match category_of c with Other => true | _ => false end) l.
Definition name_of (c : N) : str := match char_name c with Some n => n | None => [] end.
(** [sep.join(l)]. *)
Fixpoint join (sep : str) (l : list str) : str :=
  match l with
  | [] => []
  | [x] => x
  | x :: l' => x ++ sep ++ join sep l'
  end.
Definition nonempty (x : str) : bool := match x with [] => false | _ => true end.
(** [format_chars] (httpolice/util/text.py:69-103), of single bytes. *)
Definition format_pieces (chars : list N) : list str :=
  filter nonempty
    (char_ranges show_chr (letters chars) ++ char_ranges show_chr (digits chars)
     ++ map name_of (named chars) ++ [visibles chars] ++ char_ranges show_hex (others chars)).
Definition format_chars (chars : list N) : str := join (s " or ") (format_pieces chars).

(** * Other small functions *)

(** [is_ascii] (httpolice/util/text.py:196-207). *)
Definition is_ascii (x : str) : bool := forallb (fun c => (c <? 128)%N) x.

(** [contains_percent_encodes] (httpolice/util/text.py:226-233). *)
Definition is_hex (c : N) : bool := is_digit c || ((65 <=? c) && (c <=? 70) || ((97 <=? c) && (c <=? 102)))%N.
Fixpoint contains_percent_encodes (x : str) : bool :=
  match x with
  | 37%N :: ((a :: b :: _) as x') => (is_hex a && is_hex b) || contains_percent_encodes x'
  | _ :: x' => contains_percent_encodes x'
  | [] => false
  end.

(** [detypographize] (httpolice/util/text.py:162-178): replacements of single
    characters by strings of other characters, in any order. *)
Definition plain_c (c : N) : str :=
  if (c =? 8220)%N || (c =? 8221)%N then [34%N]
  else if (c =? 8216)%N || (c =? 8217)%N then [39%N]
  else if (c =? 8212)%N then [45; 45]%N
  else if (c =? 8211)%N || (c =? 8722)%N then [45%N]
  else if (c =? 160)%N then [32%N]
  else [c].
Definition detypographize (x : str) : str := flat_map plain_c x.
