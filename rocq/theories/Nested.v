(** The two semantic actions that call the parser again
    (httpolice/syntax/rfc7838.py, rfc8288.py). *)
From Coq Require Import ZifyBool ZifyNat ZifyN String.
From Verif Require Import Base Earley Parse Grammar Syntax Actions.
Open Scope nat_scope.
Open Scope list_scope.
Unset Strict Implicit.

Section Nested.
(** [parse()]; [None] is a failure. *)
Variable read : symbol -> str -> option (val * list vcomplaint).

(** What stands for the exception object in a complaint. *)
Definition parse_error : str * val := (s "error", VObj (s "ParseError") []).

(** [parse(text, x, complain, fail, **extra)] (httpolice/parse.py:53-131):
    the context of the call is added to every complaint. *)
Definition parse_again (x : symbol) (text : str) (fail : N) (extra : list (str * val)) : val * list vcomplaint :=
  match read x text with
  | Some (v, cs) => (v, map (fun c => (fst c, extra ++ snd c)) cs)
  | None => (VUnavailable (VBytes text), [(fail, parse_error :: extra)])
  end.

(** [maybe_str(uri_host) + ':' + port] (httpolice/syntax/rfc7838.py:39). *)
Definition alt_authority_inner : symbol := add (add (maybe_str host) (lit ":")) port.
(** [_check_alt_authority] (httpolice/syntax/rfc7838.py:37-40). *)
Definition check_alt_authority (text : str) : val * list vcomplaint :=
  parse_again alt_authority_inner text 1257 [(s "authority", VStr text)].

(** The names are [CaseInsensitive]; here they are in lower case. *)
Definition names_once : list str := map s ["rel"; "media"; "title"; "title*"; "type"]%string.
(** httpolice/syntax/rfc8288.py:33-36 *)
Definition link_param_syntax (name : str) : option symbol :=
  if str_eqb name (s "anchor") then Some URI_reference
  else if str_eqb name (s "rel") then Some rel
  else if str_eqb name (s "rev") then Some rel
  else if str_eqb name (s "hreflang") then Some hreflang
  else if str_eqb name (s "type") then Some type_8288
  else if str_eqb name (s "title*") then Some ext_value
  else None.

(** The loop of [_process_params] (httpolice/syntax/rfc8288.py:15-44): the
    names seen, and [parsed_as], which keeps its value from an earlier turn
    when a parameter has no value.  [None] is an exception: [parsed_as] is not
    set, or the value to be parsed is [None]. *)
Fixpoint process_params (seen : list str) (parsed_as : option str) (params : list val)
  : option (list val * list vcomplaint) :=
  match params with
  | [] => Some ([], if existsb (str_eqb (s "rel")) seen then [] else [(1309%N, [])])
  | VTuple [VObj c [VStr name]; value] :: rest =>
      let n := map lower_c name in
      let named := (s "name", VObj c [VStr name]) in
      if existsb (str_eqb n) names_once && existsb (str_eqb n) seen then
        match process_params seen parsed_as rest with
        | Some (r, cs) => Some (r, (1225%N, [named]) :: cs)
        | None => None
        end
      else
        let seen' := if existsb (str_eqb n) names_once then n :: seen else seen in
        match value with
        | VNone | VTuple [VStr _; VStr _] =>
            let parsed_as' := match value with VTuple [VStr p; _] => Some p | _ => parsed_as end in
            let text := match value with VTuple [_; VStr x] => Some x | _ => None end in
            let asked := str_eqb n (s "title") || str_eqb n (s "hreflang") in
            match (if asked then parsed_as' else Some []) with
            | None => None
            | Some p =>
                let c1 := if str_eqb n (s "title") && str_eqb p (s "token") then [(1307%N, [])] else [] in
                let c2 := if str_eqb n (s "hreflang") && str_eqb p (s "quoted-string") then [(1308%N, [])] else [] in
                match link_param_syntax n, text with
                | Some _, None => None
                | x, _ =>
                    let (v, c3) :=
                      match x, text with
                      | Some x', Some t => parse_again x' t 1158 [named; (s "value", VStr t)]
                      | _, Some t => (VStr t, [])
                      | _, None => (VNone, [])
                      end in
                    let c4 := if str_eqb n (s "rev") then [(1226%N, [])] else [] in
                    match process_params seen' parsed_as' rest with
                    | Some (r, cs) => Some (VTuple [VObj c [VStr name]; v] :: r, c1 ++ c2 ++ c3 ++ c4 ++ cs)
                    | None => None
                    end
                end
            end
        | _ => None
        end
  | _ => None
  end.

Definition nested (p : pyf) (args : list val) : val * list vcomplaint :=
  match p, args with
  | PCheckAltAuthority, [VStr x] => check_alt_authority x
  | PProcessParams, [VList params] =>
      match process_params [] None params with
      | Some (r, cs) => (multidict r, cs)
      | None => (VBad, [])
      end
  | _, _ => (VBad, [])
  end.
End Nested.
