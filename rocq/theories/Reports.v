(** How reports find the data that a notice refers to
    (httpolice/reports/common.py:10-15). *)
From Coq Require Import String.
From Verif Require Import Base Grammar Text Structure Known Header Values ChecksBase ChecksResponse.
Open Scope nat_scope.
Open Scope list_scope.
Unset Strict Implicit.
Local Open Scope string_scope.
Local Open Scope list_scope.

(** What a reference can lead to: a message, its headers, the view of a header
    (by the message and the name), a value, or something else that has no
    attributes in the model: another argument of [complain()], or something
    computed. *)
Inductive node := NMessage (w : who) | NHeaders (w : who) | NView (w : who) (name : str) | NValue (v : val) | NArg (c : carg) | NOther.

(** [Knowledge.name_from_raw] (httpolice/known/__init__.py:66-77) for keys that
    are text. *)
Definition name_char (c : N) : N := if existsb (N.eqb c) [32; 43; 45; 46; 47]%N then 95%N else lower_char c.
Definition name_from_raw (key : str) : str :=
  let name := map name_char key in
  if existsb (fun k => str_eqb (s k) name) ["continue"; "for"; "from"; "return"] then name ++ s "_" else name.
(** [getattr(h, name)] (httpolice/known/__init__.py:40-46, 140-152): the accessor
    of a table has an attribute for every key. *)
Definition accessor (keys : list str) (name : string) : option str := find (fun k => str_eqb (name_from_raw k) (s name)) keys.

Section Exchange.
Variable E : env.
Variable x : exchange.

(** The attributes of messages that notices refer to (httpolice/message.py:44-56,
    95-112, 198-241, httpolice/request.py:108-110, httpolice/response.py:90-92,
    httpolice/exchange.py:27-30).  [None] is [AttributeError].  The others are left
    out.  That computing a derived property may raise is left out too: the text
    of a body and its charset are [NOther]. *)
Definition subject_at (w : who) : option subject :=
  match w with
  | Req => option_map of_request (x_request x)
  | Resp i => option_map (fun p => of_response i p (x_request x)) (nth_error (x_responses x) i)
  end.
Definition text_or_none (v : option str) : val := match v with Some t => VStr t | None => VNone end.
Definition message_attr (w : who) (name : string) : option node :=
  match subject_at w with
  | None => None
  | Some j =>
      if String.eqb name "version" then Some (NValue (text_or_none (m_version (j_msg j))))
      else if String.eqb name "headers" then Some (NHeaders w)
      else if String.eqb name "displayable_body" || String.eqb name "guessed_charset" then Some NOther
      else match w with
           | Req =>
               match x_request x with
               | Some q =>
                   if String.eqb name "method" then Some (NValue (VObj (s "Method") [VStr (q_method q)]))
                   else if String.eqb name "target" then Some (NValue (VStr (q_target q)))
                   else None
               | None => None
               end
           | Resp _ =>
               if String.eqb name "status" then option_map (fun z => NValue (VInt z)) (j_status j)
               else if String.eqb name "request" then Some (match x_request x with Some _ => NMessage Req | None => NValue VNone end)
               else None
           end
  end.
(** [headers.name] (httpolice/header.py:44-45). *)
Definition headers_attr (w : who) (name : string) : option node := option_map (NView w) (accessor (map hk_key header_table) name).
(** [view.value] (httpolice/header.py:182-192); [None] when parsing raises. *)
Definition view_value (w : who) (name : str) : option Header.view :=
  match subject_at w with
  | None => None
  | Some j => match snd (ChecksBase.view j name E) with Ok v => Some v | Raise _ => None end
  end.
(** Any other attribute: directives of Cache-Control (httpolice/header.py:362-369),
    else the attributes of the value (266-267).  The other views with directives
    are left out, as no notice refers to theirs. *)
Definition view_attr (w : who) (name : str) (a : string) : option node :=
  match view_value w name with
  | None => None
  | Some v =>
      if String.eqb a "value" then Some (NValue (v_value v))
      else if ci_eq (s "Cache-Control") name then
        match accessor (map ak_key cache_directive_table) a with
        | Some key => let d := directive v key in if has_bad d then None else Some (NValue d)
        | None => None
        end
      else option_map NValue (attr (s a) (v_value v))
  end.
Definition getattr (n : node) (a : string) : option node :=
  match n with
  | NMessage w => message_attr w a
  | NHeaders w => headers_attr w a
  | NView w name => view_attr w name a
  | NValue v => option_map NValue (attr (s a) v)
  | NArg _ | NOther => None
  end.
Fixpoint getattrs (n : node) (path : list string) : option node :=
  match path with
  | [] => Some n
  | a :: path' => match getattr n a with Some n' => getattrs n' path' | None => None end
  end.
Definition node_of (c : carg) : node :=
  match c with
  | CVal v => NValue v
  | CHeader w name => NView w name
  | CResponse i => NMessage (Resp i)
  | _ => NArg c
  end.
(** The context of a complaint (httpolice/blackboard.py:52-58): its keywords, and
    the message as [msg] (httpolice/message.py:42).  A keyword [msg] would take
    precedence in Python, but no call passes one. *)
Definition context_get (w : who) (ctx : list (str * carg)) (key : string) : option node :=
  if String.eqb key "msg" then Some (NMessage w)
  else option_map (fun kv => node_of (snd kv)) (find (fun kv => str_eqb (fst kv) (s key)) ctx).
(** [resolve_reference] (httpolice/reports/common.py:10-15); [None] is [KeyError]
    or [AttributeError]. *)
Definition resolve_reference (w : who) (ctx : list (str * carg)) (path : list string) : option node :=
  match path with
  | [] => None
  | key :: path' => match context_get w ctx key with Some n => getattrs n path' | None => None end
  end.
End Exchange.
