(** The annotated values of headers, which the HTML report shows: pieces of the
    text, and objects with links to their specifications. *)
From Coq Require Import String.
From Verif Require Import Base Earley Parse Grammar Syntax Actions Text Structure Known Header TextReport.
Open Scope nat_scope.
Open Scope list_scope.
Unset Strict Implicit.
Local Open Scope string_scope.
Local Open Scope list_scope.

(** [known.classes] (httpolice/known/__init__.py:242-388).  [ProductName] has no
    accessor and is not there. *)
Definition known_classes : list str := map s
  ["FieldName"; "Method"; "StatusCode"; "CacheDirective"; "ForwardedParam"; "MediaType"; "AltSvcParam"; "AuthScheme"; "ContentCoding";
   "HSTSDirective"; "Preference"; "RangeUnit"; "TransferCoding"; "UpgradeToken"; "WarnCode"].
Definition is_known_class (cls : str) : bool := existsb (str_eqb cls) known_classes.
(** [isinstance(obj, tuple(known.classes))] (httpolice/parse.py:893-895).  All these
    are classes of strings and numbers, made of one argument, and none is a subclass
    of another (httpolice/structure.py:153-402). *)
Definition of_known_class (v : val) : bool := match v with VObj cls [_] => is_known_class cls | _ => false end.

Section Entries.
(** [_inner_parse] with [annotate_classes=known.classes] (httpolice/parse.py:109-121);
    [None] is a [ParseError]. *)
Variable read : symbol -> str -> option (@presult val vcomplaint).
(** What [annotated_header_entries] and [annotated_trailer_entries] give for an entry
    (httpolice/message.py:58-66): what [HeaderView._pre_parse] has stored
    (httpolice/header.py:130-150), or the value.  [parsed]: some check has asked for the
    value of this header. *)
Definition annotated_value (parsed : bool) (name : str) (p : place) (e : entry) : list (chunk val) :=
  if negb parsed || (fst p && is_bad_for_trailer name) then [Bytes (e_value e)]
  else
    match syntax_for name with
    | None => [Bytes (e_value e)]
    | Some x =>
        match read x (e_value e) with
        | None => [Bytes (e_value e)]
        | Some r => if is_unavailable (pr_node r) then [Bytes (e_value e)] else splice (e_value e) (pr_annotations r)
        end
    end.
End Entries.

(** [str(obj)] of objects of those classes. *)
Definition known_str (v : val) : str :=
  match v with
  | VObj cls [VStr t] => if is_number cls then dec_str (dec_value t) else t
  | _ => []
  end.
(** The text of a piece in the report: [_render_annotated] (httpolice/reports/html.py:207-213)
    and [_render_known] (httpolice/reports/html.py:295-306).  Decoding ISO 8859-1 is the
    identity on octets. *)
Definition piece_shown (c : chunk val) : str :=
  match c with
  | Bytes b => printable b
  | Obj v => printable (known_str v)
  end.
Definition value_shown (pieces : list (chunk val)) : str := flat_map piece_shown pieces.
