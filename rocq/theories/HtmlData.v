(** The data that the HTML report shows of an exchange that was checked. *)
From Coq Require Import String Cantor.
From Verif Require Import Base Earley Grammar Parse Text Actions Structure Known Tables Header Values Citation Links Templates Catalogue Titles Blackboard ChecksBase ChecksMessage ChecksResponse Reports Annotated TextReport Html.
Open Scope nat_scope.
Open Scope list_scope.
Unset Strict Implicit.
Local Open Scope string_scope.
Local Open Scope list_scope.

(** What is identified by [id()]: the parts of messages that are displayed, and anything
    else.  That different values can be one object, or equal ones different objects, is left out:
    only the parts of messages are marked with their ids in the report. *)
Inductive thing := TPart (w : who) (p : part) | TNode (n : node).

Section Data.
Variable E : env.
Variable x : exchange.
(** [str()] of what is not described below. *)
Variable other : node -> str.
(** [_anonymize_id(id(obj))] (httpolice/reports/html.py:231-236). *)
Variable id_of : thing -> N.

(** ** References *)

(** [hdr.entries] (httpolice/header.py:180-184); [None] when parsing raises.  There are no views of
    messages that are not in the exchange. *)
Definition places (w : who) (name : str) : option (list place) :=
  match subject_at x w with
  | Some _ => option_map (fun v => map fst (v_entries v)) (view_value E x w name)
  | None => Some []
  end.
Definition entry_ids (w : who) (l : list place) : list N := map (fun p => id_of (TPart w (PEntry p))) l.
(** [_reference_ids] (httpolice/reports/html.py:239-249). *)
Fixpoint val_ids (v : val) : list N :=
  match v with
  | VList l => flat_map val_ids l
  | _ => [id_of (TNode (NValue v))]
  end.
Fixpoint views_ids (w : who) (names : list str) : option (list N) :=
  match names with
  | [] => Some []
  | n :: names' => match places w n, views_ids w names' with Some l, Some k => Some (entry_ids w l ++ k) | _, _ => None end
  end.
Definition node_ids (n : node) : option (list N) :=
  match n with
  | NView w name => option_map (entry_ids w) (places w name)
  | NArg (CEntry w p) => Some (entry_ids w [p])
  | NArg (CEntries w l) => Some (entry_ids w l)
  | NArg (CHeaders w names) => views_ids w names
  | NValue v => Some (val_ids v)
  | _ => Some [id_of (TNode n)]
  end.
(** The attributes of messages that are displayed, and so marked. *)
Definition part_named (a : string) : option part :=
  if String.eqb a "method" then Some PMethod
  else if String.eqb a "target" then Some PTarget
  else if String.eqb a "version" then Some PVersion
  else if String.eqb a "status" then Some PStatus
  else if String.eqb a "displayable_body" then Some PBody
  else None.
Definition part_at (c : who * list (str * carg)) (path : list string) : option (who * part) :=
  match resolve_reference E x (fst c) (snd c) (removelast path) with
  | Some (NMessage w) => option_map (pair w) (part_named (last path ""))
  | _ => None
  end.

(** ** Expansion *)

(** [expand_piece] of a value (httpolice/reports/common.py:18-35).  Instances of the
    known classes are rendered as such (httpolice/reports/html.py:381-382). *)
Fixpoint data_of_val (v : val) : data :=
  match v with
  | VStr t => DText t
  | VInt z => DText (show z)
  | VNone => DText (s "None")
  | VList l => DList (map data_of_val l)
  | VObj cls [VStr t] => if is_known_class cls then DKnown (class_name cls) (known_str v) else DText t
  | VObj cls (item :: _) => if str_eqb cls (s "Parametrized") then data_of_val item else DText (other (NValue v))
  | _ => DText (other (NValue v))
  end.
(** [expand_header] (httpolice/reports/common.py:37-47). *)
Definition name_data (name : str) : data := DKnown "FieldName" (canonical_name name).
Definition entry_data (w : who) (p : place) : data :=
  match subject_at x w with
  | Some j =>
      match nth_error (if fst p then trailer_entries (m_entries (j_msg j)) else header_entries (m_entries (j_msg j))) (snd p) with
      | Some e => name_data (e_name e)
      | None => DText (other (NArg (CEntry w p)))
      end
  | None => DText (other (NArg (CEntry w p)))
  end.
Definition node_data (n : node) : data :=
  match n with
  | NView _ name => name_data name
  | NValue v => data_of_val v
  | NArg (CEntry w p) => entry_data w p
  | NArg (CEntries w l) => DList (map (entry_data w) l)
  | NArg (CHeaders _ names) => DList (map name_data names)
  | _ => DText (other n)
  end.
(** Status codes are instances of [StatusCode], which the model has as numbers. *)
Definition is_status (path : list string) : bool := existsb (String.eqb (last path "")) ["status"; "expected_status"].
Definition datum (path : list string) (n : node) : data :=
  match n with
  | NValue (VInt z) => if is_status path then DKnown "StatusCode" (show z) else node_data n
  | _ => node_data n
  end.
Definition resolve_html (c : who * list (str * carg)) (path : list string) : option (list N * data) :=
  match resolve_reference E x (fst c) (snd c) path with
  | None => None
  | Some n =>
      match match part_at c path with Some (w, p) => Some [id_of (TPart w p)] | None => node_ids n end with
      | Some ids => Some (ids, datum path n)
      | None => None
      end
  end.

(** [_magic_references] (httpolice/reports/html.py:263-288). *)
Definition magic_html (c : who * list (str * carg)) (cls : string) (t : str) : option (list N) :=
  let w := fst c in
  if String.eqb cls "FieldName" then option_map (entry_ids w) (places w t)
  else if String.eqb cls "Method" then
    Some match x_request x with
         | Some q => if str_eqb (q_method q) t then [id_of (TPart Req PMethod)] else []
         | None => []
         end
  else if String.eqb cls "StatusCode" then
    Some match subject_at x w with
         | Some j => match j_status j with Some z => if str_eqb (show z) t then [id_of (TPart w PStatus)] else [] | None => [] end
         | None => []
         end
  else Some [].
(** [ctx['error']]: what the exceptions are is not in the context of the model. *)
Variable failed : who * list (str * carg) -> failure.
Definition error_html (c : who * list (str * carg)) : option failure :=
  match find (fun kv => str_eqb (fst kv) (s "error")) (snd c) with Some _ => Some (failed c) | None => None end.

(** ** Messages *)
Variable remark_of : who -> option str.
(** [_inner_parse] with [annotate_classes=known.classes], see Annotated.v. *)
Variable read : symbol -> str -> option (@presult val vcomplaint).
(** [annotated_header_entries], [annotated_trailer_entries] (httpolice/message.py:58-66).  The checks ask for
    the value of each header (httpolice/message.py:261-266), and so each is parsed. *)
Definition line_of (trailer : bool) (ie : nat * Header.entry) : line :=
  ((trailer, fst ie), e_name (snd ie), annotated_value read true (e_name (snd ie)) (trailer, fst ie) (snd ie)).
Definition start_of (w : who) : option start :=
  match w with
  | Req => option_map (fun q => StartRequest (q_method q) (q_target q)) (x_request x)
  | Resp i => option_map (fun p => StartResponse (p_status p) (p_reason p)) (nth_error (x_responses x) i)
  end.
Definition message_data (w : who) : option message :=
  match subject_at x w, start_of w with
  | Some j, Some st =>
      match snd (displayable_body j E) with
      | Ok (v, transforms) =>
          Some (Msg_ (remark_of w) (m_version (j_msg j)) st
                  (map (line_of false) (number 0 (header_entries (m_entries (j_msg j)))))
                  match v with VStr t => Shown t | VNone => Unknown | _ => Unavailable_ end
                  transforms
                  (map (line_of true) (number 0 (trailer_entries (m_entries (j_msg j))))))
      | Raise _ => None
      end
  | _, _ => None
  end.
End Data.

(** ** Reports about any number of exchanges *)
Section Whole.
Variable E : env.
Variable exchange_at : nat -> exchange.
Variable other : node -> str.
Variable id_of : nat -> thing -> N.
Variable failed : nat -> who * list (str * carg) -> failure.
Variable remark_of : nat -> who -> option str.
Variable read : symbol -> str -> option (@presult val vcomplaint).
(** Notices that are visible on each message and exchange, with the exchange that their contexts
    come from. *)
Notation context := (nat * (who * list (str * carg)))%type.
Variable visible : obj -> list (N * context).
(** Each message has a number, by its exchange and by its place in it. *)
Definition place_number (w : who) : nat := match w with Req => 0 | Resp i => S i end.
Definition message_number (e : nat) (w : who) : nat := Cantor.to_nat (e, place_number w).
Definition message_place (m : nat) : nat * who := let (e, k) := Cantor.of_nat m in (e, match k with 0 => Req | S i => Resp i end).
(** [exch.request], [exch.responses] (httpolice/exchange.py:40-53). *)
Definition request_number (e : nat) : option nat := option_map (fun _ => message_number e Req) (x_request (exchange_at e)).
Definition response_numbers (e : nat) : list nat := map (fun i => message_number e (Resp i)) (List.seq 0 (List.length (x_responses (exchange_at e)))).
Definition resolve_in (c : context) : list string -> option (list N * data) := resolve_html E (exchange_at (fst c)) other (id_of (fst c)) (snd c).
Definition magic_in (c : context) : string -> str -> option (list N) := magic_html E (exchange_at (fst c)) (id_of (fst c)) (snd c).
Definition error_in (c : context) : option failure := error_html (failed (fst c)) (snd c).
Definition message_in (m : nat) : option message := let (e, w) := message_place m in message_data E (exchange_at e) (remark_of e) read w.
Definition id_in (m : nat) (p : part) : N := let (e, w) := message_place m in id_of e (TPart w p).
(** [html_report] (httpolice/reports/html.py:26-63) of exchanges that were checked. *)
Definition report_html : list nat -> list html * bool := html_report resolve_in magic_in error_in message_in id_in visible request_number response_numbers.
End Whole.
