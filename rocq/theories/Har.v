(** Model of httpolice/inputs/har.py: HAR files, which are JSON, into exchanges. *)
From Coq Require Import ZifyBool ZifyNat ZifyN.
From Verif Require Import Base Text Structure.
Open Scope nat_scope.
Open Scope list_scope.
Unset Strict Implicit.
Local Open Scope string_scope.
Local Open Scope list_scope.

(** * JSON as [json.load] returns it *)

(** A float: a finite one, or one of the constants that [json] also reads. *)
Inductive real := Finite (n : Z) (d : positive) | Infinite (positive_ : bool) | NotANumber.
(** An object has its members as the dictionary has them, one for each name. *)
Inductive json :=
| JNull | JBool (b : bool) | JInt (z : Z) | JReal (r : real) | JStr (x : str) | JList (l : list json) | JObj (l : list (str * json)).

(** Exceptions. *)
Inductive exn := TypeError | KeyError | AttributeError | ValueError | OverflowError.
Inductive res (A : Type) := Ok (x : A) | Err (e : exn).
Arguments Ok {A} x.
Arguments Err {A} e.
Definition andThen {A B} (m : res A) (f : A -> res B) : res B := match m with Ok x => f x | Err e => Err e end.
Notation "x <-- m ;; k" := (andThen m (fun x => k)) (at level 61, m at next level, right associativity).
Fixpoint each_ok {A B} (f : A -> res B) (l : list A) : res (list B) :=
  match l with
  | [] => Ok []
  | x :: l' => y <-- f x ;; ys <-- each_ok f l' ;; Ok (y :: ys)
  end.

(** What the code calls and this model leaves open. *)
Record har_env := HarEnv {
  (** [str(x)] of what is not a string. *)
  h_str : json -> str;
  (** [urllib.parse.urlparse] of a string: scheme, netloc, path and query, or [ValueError]. *)
  h_urlparse : str -> option (str * str * str * str);
  (** [int(x)] of a string, or [ValueError]. *)
  h_int : str -> option Z;
  (** [base64.b64decode] of a string, or [ValueError]. *)
  h_base64 : str -> option str
}.

(** ** Python operations on these values *)

Fixpoint lookup (l : list (str * json)) (k : str) : option json :=
  match l with
  | [] => None
  | (k', v) :: l' => if str_eqb k' k then Some v else lookup l' k
  end.
(** [x[k]]. *)
Definition item (x : json) (k : string) : res json :=
  match x with
  | JObj l => match lookup l (s k) with Some v => Ok v | None => Err KeyError end
  | _ => Err TypeError
  end.
(** [x.get(k)]; [None] in Python and here when there is none. *)
Definition get_item (x : json) (k : string) : res (option json) :=
  match x with
  | JObj l => Ok (lookup l (s k))
  | _ => Err AttributeError
  end.
(** [for y in x]. *)
Definition iterate (x : json) : res (list json) :=
  match x with
  | JList l => Ok l
  | JStr t => Ok (map (fun c => JStr [c]) t)
  | JObj l => Ok (map (fun kv => JStr (fst kv)) l)
  | _ => Err TypeError
  end.
(** [x == 0]. *)
Definition is_zero (x : json) : bool :=
  match x with
  | JInt z => Z.eqb z 0
  | JBool b => negb b
  | JReal (Finite n _) => Z.eqb n 0
  | _ => false
  end.
(** [x > 0]. *)
Definition above_zero (x : json) : res bool :=
  match x with
  | JInt z => Ok (0 <? z)%Z
  | JBool b => Ok b
  | JReal (Finite n _) => Ok (0 <? n)%Z
  | JReal (Infinite p) => Ok p
  | JReal NotANumber => Ok false
  | _ => Err TypeError
  end.
(** [bool(x)]. *)
Definition is_true (x : json) : bool :=
  match x with
  | JNull => false
  | JBool b => b
  | JInt z => negb (Z.eqb z 0)
  | JReal (Finite n _) => negb (Z.eqb n 0)
  | JReal _ => true
  | JStr t => match t with [] => false | _ => true end
  | JList l => match l with [] => false | _ => true end
  | JObj l => match l with [] => false | _ => true end
  end.
(** [x == t] for a constant string. *)
Definition is_text (x : json) (t : string) : bool := match x with JStr y => str_eqb y (s t) | _ => false end.
(** [creator in [...]]. *)
Definition is_one_of (x : json) (l : list string) : bool := existsb (is_text x) l.
(** [t in x] for strings. *)
Fixpoint occurs_in (t x : str) : bool :=
  starts_with x t || match x with [] => false | _ :: x' => occurs_in t x' end.
(** [t in x] for any [x]. *)
Definition contains_text (t : string) (x : json) : res bool :=
  match x with
  | JStr y => Ok (occurs_in (s t) y)
  | JList l => Ok (existsb (fun y => is_text y t) l)
  | JObj l => Ok (existsb (fun kv => str_eqb (fst kv) (s t)) l)
  | _ => Err TypeError
  end.
(** [x.encode('iso-8859-1', 'replace')] ([force_bytes], httpolice/util/text.py:110-113). *)
Definition to_latin1 (x : str) : str := map (fun c => if (c <? 256)%N then c else 63%N) x.

Section Har.
Variable H : har_env.

(** [str(x)]. *)
Definition text_of (x : json) : str := match x with JStr t => t | _ => h_str H x end.
(** [int(x)], as in [StatusCode(x)]. *)
Definition to_int (x : json) : res Z :=
  match x with
  | JInt z => Ok z
  | JBool b => Ok (if b then 1 else 0)%Z
  | JReal (Finite n d) => Ok (Z.quot n (Zpos d))
  | JReal (Infinite _) => Err OverflowError
  | JReal NotANumber => Err ValueError
  | JStr t => match h_int H t with Some z => Ok z | None => Err ValueError end
  | _ => Err TypeError
  end.
(** [urlparse(x)].  Of something false that is not a string all parts are
    empty (bytes); anything else has no method [decode]. *)
Definition parse_url (x : json) : res (str * str * str * str) :=
  match x with
  | JStr t => match h_urlparse H t with Some p => Ok p | None => Err ValueError end
  | _ => if is_true x then Err AttributeError else Ok ([], [], [], [])
  end.
(** [HeaderEntry(name, value)] (httpolice/structure.py:218-221). *)
Definition header_entry (e : str * json) : res (str * str) :=
  match snd e with
  | JStr v => Ok (fst e, to_latin1 v)
  | _ => Err AttributeError
  end.

(** ** Messages *)

(** What is known of a body: [None], [Unavailable()], or bytes. *)
Definition har_body := avail str str.
(** A request: [unicode_body] if it was set.  ([is_to_proxy] is always set to
    [None] and the remark always names the file.) *)
Record har_request := HarRequest {
  hq_scheme : str; hq_method : str; hq_target : str; hq_version : option str;
  hq_headers : list (str * str); hq_body : har_body; hq_text : option json
}.
(** A response: [decoded_body] and [unicode_body] if they were set. *)
Record har_response := HarResponse {
  hp_version : option str; hp_status : Z; hp_reason : option str;
  hp_headers : list (str * str); hp_body : har_body; hp_decoded : option str; hp_text : option json
}.

(** httpolice/inputs/har.py:16-19 *)
Definition FIDDLER := ["Fiddler"].
Definition CHROME := ["WebInspector"].
Definition FIREFOX := ["Firefox"].
Definition EDGE := ["F12 Developer Tools"].

(** [_process_message] (httpolice/inputs/har.py:151-166). *)
Definition process_message (data creator : json) : res (option str * list (str * json)) :=
  headers <-- item data "headers" ;;
  l <-- iterate headers ;;
  entries <-- each_ok (fun d => n <-- item d "name" ;; v <-- item d "value" ;; Ok (text_of n, v)) l ;;
  let entries := fst (pop_pseudo_headers entries) in
  v <-- item data "httpVersion" ;;
  match v with
  | JStr t => Ok (if starts_with t (s "HTTP/") && negb (is_one_of creator (CHROME ++ FIREFOX ++ EDGE)) then Some t else None, entries)
  | _ => Err AttributeError
  end.

(** [_process_request] (httpolice/inputs/har.py:46-95). *)
Definition process_request (data creator : json) : res har_request :=
  m <-- process_message data creator ;;
  let (version, entries) := m in
  method <-- item data "method" ;;
  url <-- item data "url" ;;
  parsed <-- parse_url url ;;
  let '(scheme, netloc, path, query) := parsed in
  let connect := is_text method "CONNECT" in
  let target :=
    if connect then netloc
    else if existsb (fun e => ci_eq (fst e) (s "Host")) entries then
      path ++ match query with [] => [] | _ => s "?" ++ query end
    else text_of url in
  size <-- item data "bodySize" ;;
  body <-- (if is_zero size then Ok (Avail [])
            else big <-- above_zero size ;; Ok (if big : bool then Unavail None else Absent)) ;;
  post <-- get_item data "postData" ;;
  text <-- match post with
           | Some p => if is_true p then t <-- get_item p "text" ;; Ok (match t with Some t => if is_true t then Some t else None | None => None end)
                       else Ok None
           | None => Ok None
           end ;;
  drop <-- match text with
           | Some t => if is_one_of creator FIDDLER && connect then contains_text "Fiddler" t else Ok false
           | None => Ok false
           end ;;
  headers <-- each_ok header_entry entries ;;
  Ok (HarRequest scheme (text_of method) target version headers
        (if drop : bool then Avail [] else body) (if drop : bool then None else text)).

(** [_process_response] (httpolice/inputs/har.py:98-148). *)
Definition process_response (data : json) (req_method : str) (creator : json) : res (option har_response) :=
  raw <-- item data "status" ;;
  if is_zero raw then Ok None else
  m <-- process_message data creator ;;
  let (version, entries) := m in
  status <-- to_int raw ;;
  reason <-- item data "statusText" ;;
  let tunnel := is_one_of creator FIDDLER && str_eqb req_method (s "CONNECT") && ((200 <=? status) && (status <=? 299))%Z in
  let entries :=
    if tunnel then filter (fun e => negb (existsb (fun n => ci_eq (fst e) (s n)) ["EndTime"; "ClientToServerBytes"; "ServerToClientBytes"])) entries
    else entries in
  size <-- item data "bodySize" ;;
  none <-- (if is_zero size then Ok true
            else content <-- item data "content" ;; z <-- item content "size" ;; Ok (is_zero z || (status =? 304)%Z)) ;;
  body <-- (if none : bool then Ok (Avail [])
            else if is_one_of creator FIREFOX then Ok Absent
            else big <-- above_zero size ;;
                 if big : bool then Ok (Unavail None)
                 else content <-- item data "content" ;; z <-- item content "size" ;; big2 <-- above_zero z ;;
                      Ok (if big2 : bool then Unavail None else Absent)) ;;
  headers <-- each_ok header_entry entries ;;
  let resp := HarResponse version status (match reason with JNull => None | _ => Some (text_of reason) end) headers in
  content <-- item data "content" ;;
  text <-- get_item content "text" ;;
  match text with
  | Some t =>
      if is_true t && negb (status =? 304)%Z then
        enc <-- get_item content "encoding" ;;
        match enc with
        | None => Ok (Some (resp body None (Some t)))
        | Some (JStr e) =>
            if str_eqb (lower e) (s "base64") then
              match t with
              | JStr x =>
                  match h_base64 H x with
                  | Some d => if tunnel && occurs_in (s "Fiddler") d then Ok (Some (resp (Avail []) None None))
                              else Ok (Some (resp body (Some d) None))
                  | None => Ok (Some (resp body None None))
                  end
              | _ => Err TypeError
              end
            else Ok (Some (resp body None None))
        | Some _ => Err AttributeError
        end
      else Ok (Some (resp body None None))
  | None => Ok (Some (resp body None None))
  end.

(** [_process_entry] (httpolice/inputs/har.py:40-43). *)
Definition har_exchange : Type := har_request * list har_response.
Definition process_entry (creator data : json) : res har_exchange :=
  q <-- item data "request" ;;
  req <-- process_request q creator ;;
  p <-- item data "response" ;;
  resp <-- process_response p (hq_method req) creator ;;
  Ok (req, match resp with Some r => [r] | None => [] end).

(** [har_input] (httpolice/inputs/har.py:22-37), consumed to its end: the
    exchanges it yields and how it ends.  A file is what [json.load] returns,
    or nothing if it raises [ValueError].  (Files that cannot be opened, and
    JSON too deep for the recursion limit, are left out.) *)
Inductive har_ending := HarDone | HarInputError | HarRaises (e : exn).
Definition har_ends (e : exn) : har_ending :=
  match e with TypeError | KeyError => HarInputError | _ => HarRaises e end.
Fixpoint process_entries (creator : json) (l : list json) : list har_exchange * har_ending :=
  match l with
  | [] => ([], HarDone)
  | x :: l' =>
      match process_entry creator x with
      | Ok e => let (es, h) := process_entries creator l' in (e :: es, h)
      | Err e => ([], har_ends e)
      end
  end.
Definition har_file (data : json) : list har_exchange * har_ending :=
  match (log <-- item data "log" ;; c <-- item log "creator" ;; creator <-- item c "name" ;;
         log2 <-- item data "log" ;; es <-- item log2 "entries" ;; l <-- iterate es ;; Ok (creator, l)) with
  | Ok (creator, l) => process_entries creator l
  | Err e => ([], har_ends e)
  end.
Fixpoint har_input (files : list (option json)) : list har_exchange * har_ending :=
  match files with
  | [] => ([], HarDone)
  | None :: _ => ([], HarInputError)
  | Some data :: files' =>
      match har_file data with
      | (es, HarDone) => let (es', h) := har_input files' in (es ++ es', h)
      | (es, h) => (es, h)
      end
  end.
End Har.
