(** Specification: values that are parsed again in parts: Alt-Svc (RFC 7838)
    and Link (RFC 8288). *)
From Coq Require Import Permutation String.
From Verif Require Import Base Earley Grammar Actions HttpText SyntaxTags P_Grammar HttpValues UriText MoreValues P_Types.
Open Scope nat_scope.
Open Scope list_scope.
Unset Strict Implicit.
Local Open Scope string_scope.
Local Open Scope list_scope.

(** The exception that goes with a notice that a part cannot be read. *)
Definition with_error : str * val := (s "error", VObj (s "ParseError") []).

(** ** RFC 7838 3: protocol "=" quoted host and port, with parameters *)
Definition alt_place (x : str) : Prop := exists h p, x = h ++ 58%N :: p /\ host_text h /\ all is_digit p.
(** Notice 1257 if what is quoted is something else. *)
Definition alt_authority_text : reading := fun w v cs => exists x c, quoted_text w (VStr x) c /\
  (alt_place x /\ v = VStr x /\ cs = c \/
   ~ alt_place x /\ v = VUnavailable (VBytes x) /\ cs = c ++ [(1257%N, [with_error; (s "authority", VStr x)])]).
Definition alt_value_text : reading := fun w v cs => exists p a rest pv av ps c1 c2 c3,
  w = p ++ 61%N :: a ++ rest /\ protocol_text p pv c1 /\ alt_authority_text a av c2 /\ after_semicolons (param "AltSvcParam") rest ps c3 /\
  v = with_params (VTuple [pv; av]) ps /\ cs = c1 ++ c2 ++ c3.
Definition alt_svc_text : reading := fun w v cs => w = s "clear" /\ v = VStr w /\ cs = [] \/ list_spec alt_value_text list1_shape w v cs.

(** ** RFC 8288 3: "<" reference ">" with parameters *)

(** A parameter as it is written: a name, and perhaps a value, of which it is
    kept whether it was quoted. *)
Definition link_param_text (w : str) (p : str * option (str * str)) (cs : list vcomplaint) : Prop := exists a rest c1 c2,
  w = fst p ++ a ++ rest /\ token_text (fst p) /\ bad_space a c1 /\ cs = c1 ++ c2 /\
  (rest = [] /\ snd p = None /\ c2 = [] \/
   exists b x t c3 c4, rest = 61%N :: b ++ x /\ bad_space b c3 /\ c2 = c3 ++ c4 /\
     (token_text x /\ t = x /\ c4 = [] /\ snd p = Some (s "token", t) \/ quoted_text x (VStr t) c4 /\ snd p = Some (s "quoted-string", t))).
Inductive link_params_text : str -> link_params -> list vcomplaint -> Prop :=
| no_link_params : link_params_text [] [] []
| one_more_param a b w p c ws ps cs : ows a -> ows b -> link_param_text w p c -> link_params_text ws ps cs ->
    link_params_text (a ++ 59%N :: b ++ w ++ ws) (p :: ps) (c ++ cs).

(** RFC 6838 4.2 *)
Definition is_restricted (c : N) : bool := is_alnum c || HttpText.among (s "!#$&-^_.+") c.
Definition restricted_text (w : str) : Prop := exists c x, w = c :: x /\ is_alnum c = true /\ all is_restricted x /\ List.length x <= 126.
Definition link_type_text : reading := fun w v cs =>
  (exists t u, w = t ++ 47%N :: u /\ restricted_text t /\ restricted_text u) /\ v = named "MediaType" w /\ mistaken w cs.

(** The value of a parameter, [t], is read again.  The notices about it also
    tell the name and the value; 1158 if it cannot be read. *)
Definition read_again (S : reading) (name t : str) (v : val) (cs : list vcomplaint) : Prop :=
  (exists c, S t v c /\ Permutation cs (map (fun k => (fst k, [(s "name", named "CaseInsensitive" name); (s "value", VStr t)] ++ snd k)) c)) \/
  ~ (exists u c, S t u c) /\ v = VUnavailable (VBytes t) /\
    cs = [(1158%N, [with_error; (s "name", named "CaseInsensitive" name); (s "value", VStr t)])].
Definition link_readings : list (string * reading) :=
  [("anchor", fun w v cs => reference_text w /\ v = VStr w /\ cs = []); ("rel", rel_text); ("rev", rel_text); ("hreflang", language_tag_text);
   ("type", link_type_text); ("title*", ext_value_text)].
Definition param_value (name t : str) (v : val) (cs : list vcomplaint) : Prop :=
  (exists m S, In (m, S) link_readings /\ same_text m name /\ read_again S name t v cs) \/
  ~ (exists m S, In (m, S) link_readings /\ same_text m name) /\ v = VStr t /\ cs = [].

(** The last value that was not left out was written as [form]. *)
Definition last_form (before : link_params) (form : str) : Prop := exists b n t c, before = b ++ (n, Some (form, t)) :: c /\ ~ left_out b n /\
  forall c1 m x c2, c = c1 ++ (m, Some x) :: c2 -> left_out (b ++ (n, Some (form, t)) :: c1) m.
Definition noted (P : Prop) (k : N) (cs : list vcomplaint) : Prop := P /\ cs = [(k, [])] \/ ~ P /\ cs = [].

(** The parameters that come after [before], what is kept of them, and the
    notices: 1225 for a repeated one, 1307 for a title and 1308 for a language
    (not) in quotes, 1226 for "rev", 1309 if there is no "rel". *)
Inductive link_parts : link_params -> link_params -> list val -> list vcomplaint -> Prop :=
| parts_end before cs : noted (~ exists p, In p before /\ same_text "rel" (fst p)) 1309 cs -> link_parts before [] [] cs
| part_left_out before n x rest vs cs : left_out before n -> link_parts (before ++ [(n, x)]) rest vs cs ->
    link_parts before ((n, x) :: rest) vs ((1225%N, [(s "name", named "CaseInsensitive" n)]) :: cs)
| part_kept before n x rest v vs c1 c2 c3 c4 cs : ~ left_out before n ->
    match x with Some (_, t) => param_value n t v c3 | None => v = VNone /\ c3 = [] end ->
    noted (same_text "title" n /\ last_form (before ++ [(n, x)]) (s "token")) 1307 c1 ->
    noted (same_text "hreflang" n /\ last_form (before ++ [(n, x)]) (s "quoted-string")) 1308 c2 ->
    noted (same_text "rev" n) 1226 c4 -> link_parts (before ++ [(n, x)]) rest vs cs ->
    link_parts before ((n, x) :: rest) (VTuple [named "CaseInsensitive" n; v] :: vs) (c1 ++ c2 ++ c3 ++ c4 ++ cs).

(** With some parameters that lack a value, the check ends with an exception
    (C65). *)
Definition raises (ps : link_params) : Prop := exists before n after, ps = before ++ (n, None) :: after /\ stumbles before n.
Definition link_value_text : reading := fun w v cs => exists u rest ps m c1 c2,
  w = 60%N :: u ++ 62%N :: rest /\ reference_text u /\ link_params_text rest ps c1 /\ v = VObj (s "Parametrized") [VStr u; m] /\ cs = c1 ++ c2 /\
  (raises ps /\ m = VBad /\ c2 = [] \/ ~ raises ps /\ exists vs, link_parts [] ps vs c2 /\ m = VObj (s "MultiDict") [VList vs]).
