(** What the checks are written in: a computation that complains on messages,
    and may raise. *)
From Coq Require Import ZifyBool ZifyNat ZifyN String.
From Verif Require Import Base Earley Grammar Syntax Actions Text Structure Known Tables Header Values.
Open Scope nat_scope.
Open Scope list_scope.
Unset Strict Implicit.

(** ** Messages *)

(** A [Message] as its constructor leaves it (httpolice/message.py:44-56): the
    version, the entries, and the body, which is bytes, [None], or
    [Unavailable].  [m_decoded] and [m_unicode] are the derived properties that
    the HAR input sets by itself (httpolice/inputs/har.py:93, 133-146). *)
Record msg := Message { m_version : option str; m_entries : entries; m_body : val; m_decoded : option val; m_unicode : option val }.
(** [Request] (httpolice/request.py:106-110). *)
Record request := Request { q_msg : msg; q_scheme : option str; q_method : str; q_target : str }.
(** [Response] (httpolice/response.py:88-92). *)
Record response := Response { p_msg : msg; p_status : Z; p_reason : option str }.

(** The message that something is reported on: the request of the exchange, or
    one of its responses. *)
Inductive who := Req | Resp (i : nat).
(** A message with what the checks common to requests and responses need: its
    status, if it is a response, and its request, if it is a response that has
    one. *)
Record subject := Subject { j_who : who; j_msg : msg; j_status : option Z; j_request : option request }.
Definition of_request (q : request) : subject := Subject Req (q_msg q) None None.
Definition of_response (i : nat) (p : response) (q : option request) : subject := Subject (Resp i) (p_msg p) (Some (p_status p)) q.

(** ** The world outside *)

(** What a library function does that can return or raise. *)
Inductive result (A : Type) := Got (v : A) | Raises.
Arguments Got {A} v.
Arguments Raises {A}.
(** [codecs.lookup], [bytes.decode]: also exceptions that the code expects. *)
Inductive attempt (A : Type) := Fine (v : A) | Refused | Broke.
Arguments Fine {A} v.
Arguments Refused {A}.
Arguments Broke {A}.
(** [json.loads], and [json.dumps] of its result. *)
Inductive json_result := JsonNull | JsonData (dumps : result str) | JsonError | JsonRaises.
(** [defusedxml.ElementTree.fromstring]. *)
Inductive xml_result := XmlFine | XmlEntities | XmlError | XmlRaises.
(** [email.message_from_bytes]: its defects; whether each part has
    Content-Range and Content-Type, if it is multipart. *)
Inductive defect := NoBoundary | NoStart | OtherDefect.
Record email := Email { defects : list defect; parts : option (list (bool * bool)) }.

Record env := Env {
  (** [parse()]; [None] is a failure. *)
  e_read : symbol -> str -> option (val * list vcomplaint);
  (** [datetime.utcnow()] in microseconds, for a message and a place in the
      code. *)
  e_now : who -> str -> Z;
  (** [decode_gzip], [decode_deflate], [decode_brotli] (httpolice/codings.py);
      [None] is any exception. *)
  e_gzip : str -> option str;
  e_deflate : str -> option str;
  e_brotli : str -> option str;
  (** [codecs.lookup(name).name]. *)
  e_codec : str -> attempt str;
  (** [data.decode(charset)], and [data.decode('utf-8', 'replace')]. *)
  e_decode : str -> str -> attempt str;
  e_replace : str -> str;
  e_json : str -> json_result;
  e_xml : str -> xml_result;
  e_email : str -> result email;
  (** The keys of [urllib.parse.parse_qs]. *)
  e_qs : str -> result (list str);
  (** [scheme], [query], [fragment] of [urllib.parse.urlparse]. *)
  e_url : str -> result (str * str * str);
  e_join : str -> str -> result str;
  (** [base64.b64decode]; [None] is any exception. *)
  e_base64 : str -> option str;
  (** [fnmatch.fnmatch(name, pattern)]. *)
  e_fnmatch : str -> str -> bool
}.

(** ** Computations *)

(** Exceptions: from the semantic action of Link (httpolice/syntax/rfc8288.py:15-44);
    from looking for a relation type in a Link relation that was not parsed
    (httpolice/response.py:328); from adding to a date
    (httpolice/response.py:118-119); from a library; and those that would be a
    mistake in the checks, such as [TypeError] or [AttributeError]. *)
Inductive exn := FromLink | FromRelation | FromDate | FromLibrary | Mistake.
(** The context of a complaint. *)
Inductive carg :=
| CVal (v : val)
| CEntry (w : who) (p : place)
| CEntries (w : who) (l : list place)
| CHeader (w : who) (name : str)
| CHeaders (w : who) (names : list str)
| CError
| CResponse (i : nat).
(** What happens: [complain()] and [silence()] on a message
    (httpolice/blackboard.py:52-69). *)
Inductive event := Said (w : who) (id : N) (ctx : list (str * carg)) | Silenced (w : who) (ids : list N).
Inductive outcome (A : Type) := Ok (v : A) | Raise (e : exn).
Arguments Ok {A} v.
Arguments Raise {A} e.
Definition M (A : Type) : Type := env -> list event * outcome A.

Definition ret {A} (v : A) : M A := fun _ => ([], Ok v).
Definition raise {A} (e : exn) : M A := fun _ => ([], Raise e).
Definition bind {A B} (m : M A) (f : A -> M B) : M B := fun E =>
  match m E with
  | (es, Ok v) => let (es', r) := f v E in (es ++ es', r)
  | (es, Raise e) => (es, Raise e)
  end.
Notation "x <- m ;; k" := (bind m (fun x => k)) (at level 61, m at next level, right associativity).
Notation "m ;;; k" := (bind m (fun _ => k)) (at level 61, right associativity).
(** Calling something outside. *)
Definition ask {A} (f : env -> A) : M A := fun E => ([], Ok (f E)).
Definition complain (w : who) (id : N) (ctx : list (str * carg)) : M unit := fun _ => ([Said w id ctx], Ok tt).
Definition say (j : subject) (id : N) (ctx : list (str * carg)) : M unit := complain (j_who j) id ctx.
Definition silence (j : subject) (ids : list N) : M unit := fun _ => ([Silenced (j_who j) ids], Ok tt).
Definition result_of {A} (r : result A) : M A := match r with Got v => ret v | Raises => raise FromLibrary end.
Definition some_of {A} (r : option A) : M A := match r with Some v => ret v | None => raise Mistake end.

(** [and], [or], [not], [if], [any], [for]. *)
Definition andM (a b : M bool) : M bool := x <- a ;; if x then b else ret false.
Definition orM (a b : M bool) : M bool := x <- a ;; if x then ret true else b.
Definition notM (a : M bool) : M bool := x <- a ;; ret (negb x).
Definition ifM {A} (c : M bool) (a b : M A) : M A := x <- c ;; if x then a else b.
Definition when (c : M bool) (a : M unit) : M unit := ifM c a (ret tt).
Definition pure (b : bool) : M bool := ret b.
Fixpoint anyM {A} (f : A -> M bool) (l : list A) : M bool :=
  match l with [] => ret false | x :: l' => orM (f x) (anyM f l') end.
Fixpoint allM {A} (f : A -> M bool) (l : list A) : M bool :=
  match l with [] => ret true | x :: l' => andM (f x) (allM f l') end.
Fixpoint for_each {A} (l : list A) (f : A -> M unit) : M unit :=
  match l with [] => ret tt | x :: l' => f x ;;; for_each l' f end.
Fixpoint mapM {A B} (f : A -> M B) (l : list A) : M (list B) :=
  match l with [] => ret [] | x :: l' => y <- f x ;; ys <- mapM f l' ;; ret (y :: ys) end.
(** Statements one after another. *)
Definition seq (l : list (M unit)) : M unit := for_each l (fun m => m).
Infix "&?" := andM (at level 59, right associativity).
Infix "|?" := orM (at level 60, right associativity).

(** ** Headers *)

(** Does a value contain the mark of an exception?  (What is in an [Unavailable]
    is a text, or an argument of a directive that was parsed.) *)
Fixpoint has_bad (v : val) : bool :=
  match v with
  | VBad => true
  | VList l | VTuple l | VObj _ l => existsb has_bad l
  | _ => false
  end.
Definition lift_arg (w : who) (x : arg) : carg :=
  match x with
  | AVal v => CVal v
  | AEntry p => CEntry w p
  | AEntries l => CEntries w l
  | AHeader n => CHeader w n
  end.
Definition lift (w : who) (n : notice) : event := Said w (fst n) (map (fun kv => (fst kv, lift_arg w (snd kv))) (snd n)).
(** [headers[name]] and parsing it (httpolice/header.py:47-69, 182-192).  A view
    is parsed once, when it is first needed; the model parses it every time,
    which repeats complaints that [complain()] then ignores
    (httpolice/blackboard.py:57).  When parsing raises, the model leaves out the
    complaints of the entries before. *)
Definition view (j : subject) (name : str) : M Header.view := fun E =>
  match class_of name with
  | None => ([], Raise Mistake)
  | Some c =>
      let v := parse_view (e_read E) c (m_entries (j_msg j)) name in
      if has_bad (v_value v) then ([], Raise FromLink) else (map (lift (j_who j)) (v_notices v), Ok v)
  end.
(** [headers.name.value], [.is_present], [.is_absent], [.is_okay],
    [bool(headers.name)] (httpolice/header.py:182-207). *)
Definition value (j : subject) (name : string) : M val := v <- view j (s name) ;; ret (v_value v).
Definition present (j : subject) (name : string) : M bool := v <- view j (s name) ;; ret (is_present v).
Definition absent (j : subject) (name : string) : M bool := notM (present j name).
Definition okayM (j : subject) (name : string) : M bool := v <- view j (s name) ;; ret (is_okay v).
Definition truth (j : subject) (name : string) : M bool := v <- value j name ;; ret (truthy_val v).
(** [getattr(headers.name, field)], which goes to the value
    (httpolice/header.py:261-262), and [getattr(value, field)]. *)
Definition field (x : string) (v : val) : M val := some_of (attr (s x) v).
Definition attr_of (j : subject) (name x : string) : M val := v <- value j name ;; field x v.
(** [iter(headers.name)] (httpolice/header.py:212-213, 322-323): views of a
    single value iterate over the value; those of many leave out what is not
    okay.  Iterating over a string gives its characters. *)
Definition letters_of (x : str) : list val := map (fun c => VStr [c]) x.
Definition is_single (name : str) : bool :=
  match class_of name with Some SingleView | Some UnknownView | Some (SpecialView StrictTransportSecurityView) => true | _ => false end.
Definition items (j : subject) (name : string) : M (list val) :=
  v <- value j name ;;
  l <- some_of match v with
               | VList l => Some l
               | _ => match str_like v with Some (Plain x) | Some (CI x) => Some (letters_of x) | None => None end
               end ;;
  ret (if is_single (s name) then l else filter okay_value l).
(** [other in headers.name] (httpolice/header.py:215-223). *)
Definition has_item (j : subject) (name : string) (other : val) : M bool :=
  l <- items j name ;; ret (existsb (fun v => veq v other) l).
(** [headers.name == other] and so on (httpolice/header.py:225-262), for values
    on the right. *)
Definition is_equal (j : subject) (name : string) (other : val) : M bool :=
  v <- view j (s name) ;; ret (is_okay v && okay_value other && veq (v_value v) other).
Definition is_unequal (j : subject) (name : string) (other : val) : M bool :=
  v <- view j (s name) ;; ret (is_okay v && okay_value other && negb (veq (v_value v) other)).
Definition compare (test : Datatypes.comparison -> bool) (j : subject) (name : string) (other : val) : M bool :=
  v <- view j (s name) ;;
  if is_okay v && okay_value other then c <- some_of (order (v_value v) other) ;; ret (test c) else ret false.
Definition is_lt (c : Datatypes.comparison) : bool := match c with Lt => true | _ => false end.
Definition is_gt (c : Datatypes.comparison) : bool := match c with Gt => true | _ => false end.
Definition is_ge (c : Datatypes.comparison) : bool := match c with Lt => false | _ => true end.
(** [headers.cache_control.x], [headers.prefer.x] (httpolice/header.py:365-371,
    437-445): [None] if there is no such directive, [True] if it has no
    argument.  [VBad] is the exception when something else is unpacked. *)
Definition directive_of (j : subject) (name key : string) : M val :=
  l <- items j name ;;
  match first_directive (s key) l with VBad => raise Mistake | v => ret v end.
Definition without_params (j : subject) : M (list val) :=
  l <- items j "Prefer" ;; mapM (fun d => p <- some_of (unpack2 d) ;; ret (fst p)) l.
Definition preference_of (j : subject) (key : string) : M val :=
  l <- without_params j ;;
  match first_directive (s key) l with VBad => raise Mistake | v => ret v end.
(** [headers], as an iterable of views: their names. *)
Definition header_names (j : subject) : list str := names (m_entries (j_msg j)).
(** [headers.clearly(predicate)] (httpolice/header.py:95-96). *)
Definition clearly (j : subject) (f : header_info -> bool) : list str := filter (flag_of f) (header_names j).

(** [MultiDict] methods (httpolice/structure.py:105-130). *)
Definition dict (v : val) : M (list (val * val)) := some_of (pairs_of v).
Definition dict_has (v key : val) : M bool := d <- dict v ;; ret (contains veq d key).
Definition dict_get (v key default : val) : M val := d <- dict v ;; some_of (Structure.get veq d key default).

(** ** Parsing a string that is not a header *)

Definition latin1 (x : str) : bool := forallb (fun c => (c <? 256)%N) x.
(** [parse(text, symbol, complain, fail, **extra)] (httpolice/parse.py:53-131). *)
Definition parse_text (j : subject) (x : symbol) (text : str) (fail : N) (extra : list (str * carg)) : M val :=
  r <- ask (fun E => if latin1 text then e_read E x text else None) ;;
  match r with
  | Some (v, cs) => for_each cs (fun c => say j (fst c) (extra ++ map (fun kv => (fst kv, CVal (snd kv))) (snd c))) ;;; ret v
  | None => say j fail ((s "error", CError) :: extra) ;;; ret (VUnavailable (VBytes text))
  end.

(** ** Knowledge (httpolice/known/__init__.py) *)

(** [x is False]. *)
Definition says_no (o : option bool) : bool := match o with Some false => true | _ => false end.
Definition says_yes (o : option bool) : bool := match o with Some true => true | _ => false end.
Fixpoint find_method (t : list method_info) (x : str) : option method_info :=
  match t with [] => None | i :: t' => if str_eqb (mk_key i) x then Some i else find_method t' x end.
Definition method_flag (f : method_info -> option bool) (x : str) : option bool :=
  match find_method method_table x with Some i => f i | None => None end.
Definition is_method (x : str) : bool := match find_method method_table x with Some _ => true | None => false end.
Fixpoint find_media (t : list media_info) (x : str) : option media_info :=
  match t with [] => None | i :: t' => if ci_eq (tk_key i) x then Some i else find_media t' x end.
Definition media_is (f : media_info -> bool) (x : str) : bool := match find_media media_table x with Some i => f i | None => false end.
Definition media_patch (x : str) : option bool := match find_media media_table x with Some i => tk_patch i | None => None end.
Definition is_json (x : str) : bool := media_is tk_is_json x || ci_endswith x (s "+json").
Definition is_xml (x : str) : bool := media_is tk_is_xml x || ci_endswith x (s "+xml").
Definition is_multipart (x : str) : bool := ci_startswith x (s "multipart/").
Definition is_library (x : str) : bool := existsb (fun k => str_eqb k x) library_table.
Fixpoint find_status (t : list (Z * cacheable)) (x : Z) : option cacheable :=
  match t with [] => None | (k, c) :: t' => if Z.eqb k x then Some c else find_status t' x end.
Definition status_cacheable (x : Z) : option cacheable := find_status status_table x.
Definition header_flag (f : header_info -> option bool) (x : str) : option bool :=
  match header_of x with Some i => f i | None => None end.
Definition directive_flag (f : arg_info -> option bool) (x : str) : option bool :=
  match find_arg true cache_directive_table x with Some i => f i | None => None end.
(** Constants made of known names, such as [media.application_json]. *)
Definition const (c x : string) : val := VObj (s c) [VStr (s x)].
(** [name in [..]] of field names. *)
Definition among (name : str) (l : list string) : bool := existsb (fun k => ci_eq (s k) name) l.
(** [method in [..]]; [version in [..]]. *)
Definition one_of_strs (x : str) (l : list string) : bool := existsb (fun k => str_eqb (s k) x) l.
Definition version_in (v : option str) (l : list string) : bool := match v with Some x => one_of_strs x l | None => false end.
