(** From what the parser knows about an error to what [ParseError] carries:
    the second half of [_build_parse_error] (httpolice/parse.py:974-998). *)
From Coq Require Import String.
From Verif Require Import Base Earley Parse Grammar Text Structure Citation Html.
Open Scope nat_scope.
Open Scope list_scope.
Unset Strict Implicit.
Local Open Scope string_scope.
Local Open Scope list_scope.

(** [Terminal.chars] (httpolice/parse.py:312-313). *)
Definition chars_of (bits : N) : str := filter (N.testbit bits) (map N.of_nat (List.seq 0 256)).

Section Details.
Context {G : grammar}.
(** [sym.name] and [sym.citation]; what is shown has a name. *)
Variable label : nt G -> str * option cite.
(** The elements of the set that is made of a list, in the order in which Python goes
    through them. *)
Variable elements : list (nt G) -> list (nt G).

(** [OrderedDict] from texts to sets or to [None]. *)
Definition expected_dict : Type := list (str * option (list (nt G))).
(** [expected.setdefault(chars, set()).update(pivots)] (httpolice/parse.py:988-989).  There is no [None]
    under the text for any characters. *)
Fixpoint update_expected (key : str) (pivots : list (nt G)) (d : expected_dict) : expected_dict :=
  match d with
  | [] => [(key, Some pivots)]
  | (k, v) :: d' =>
      if str_eqb k key then (k, option_map (fun l => l ++ pivots) v) :: d'
      else (k, v) :: update_expected key pivots d'
  end.
(** [expected[u'end of data'] = None] (httpolice/parse.py:994). *)
Fixpoint expect_end (d : expected_dict) : expected_dict :=
  match d with
  | [] => [(s "end of data", None)]
  | (k, v) :: d' => if str_eqb k (s "end of data") then (k, None) :: d' else (k, v) :: expect_end d'
  end.
(** The loop (httpolice/parse.py:983-994). *)
Definition group (l : list (@expectation G)) : expected_dict :=
  fold_left (fun d e => match e with
                        | ExpTerminal bits pivots => update_expected (format_chars (chars_of bits)) pivots d
                        | ExpEnd => expect_end d
                        end) l [].
(** [ParseError(name=None, position=i, expected=list(expected.items()), found=found)] (httpolice/parse.py:996-997). *)
Definition error_of (e : @Earley.parse_error G) : Html.parse_error :=
  ParseErr None (Z.of_nat (Earley.pe_position e)) (Some match Earley.pe_found e with Some c => [c] | None => [] end)
    (map (fun kv => (Some (fst kv), match snd kv with Some l => map label (elements l) | None => [] end)) (group (Earley.pe_expected e))).
End Details.
