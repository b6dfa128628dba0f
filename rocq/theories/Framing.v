(** Model of httpolice/framing1.py: HTTP/1.x message framing. *)
From Verif Require Import Base Stream.

(** httpolice/framing1.py:31 *)
Definition MAX_BODY_SIZE : Z := 1073741824.

(** A header entry: field name and value (httpolice/structure.py:208-224). *)
Definition entry := (str * str)%type.

(** [Message.body]: bytes, or [Unavailable(inner)]. *)
Inductive body :=
| Body (b : str)
| Unavail (inner : option str).

(** [okay(body)], httpolice/structure.py:52-53. *)
Definition body_okay (b : body) : bool := match b with Body _ => true | _ => false end.

(** Places named in the context of a complaint. *)
Inductive place := RequestHeading | ResponseHeading | ChunkedFraming | ContentLengthField.

(** The context of a complaint made by this module.  The error object carries
    the position and expectation of the [ParseError]. *)
Inductive ctx :=
| CtxNone
| CtxPlace (p : place)
| CtxError (e : perror)
| CtxSize (p : place) (size : Z)
| CtxCoding (c : str).

Record note := mkNote { n_id : N; n_ctx : ctx }.

Definition place_eqb (a b : place) : bool :=
  match a, b with
  | RequestHeading, RequestHeading | ResponseHeading, ResponseHeading
  | ChunkedFraming, ChunkedFraming | ContentLengthField, ContentLengthField => true
  | _, _ => false
  end.

(** Equality of contexts as used by [complaint not in self._complaints]:
    exception objects compare by identity, so two errors are never equal. *)
Definition ctx_eqb (a b : ctx) : bool :=
  match a, b with
  | CtxNone, CtxNone => true
  | CtxPlace p, CtxPlace q => place_eqb p q
  | CtxSize p n, CtxSize q m => place_eqb p q && (n =? m)%Z
  | CtxCoding c, CtxCoding d => ci_eqb c d
  | _, _ => false
  end.

Definition note_eqb (a b : note) : bool :=
  (a.(n_id) =? b.(n_id)) && ctx_eqb a.(n_ctx) b.(n_ctx).

(** httpolice/blackboard.py:52-58, on the list of complaints of a message. *)
Definition add_note (n : note) (l : list note) : list note :=
  if existsb (note_eqb n) l then l else l ++ [n].

(** The part of [Request] and [Response] objects that framing fills in
    (httpolice/request.py:21-60, httpolice/response.py:28-70).
    [offset] is the number in the remark 'from %s, offset %d'.
    Simplification: notices raised while header values are parsed are not
    recorded here (they belong to the model of header views). *)
Record message := mkMessage {
  entries : list entry;
  trailer : list entry;
  mbody : body;
  offset : N;
  notes : list note
}.

Record request := mkRequest {
  rq_method : str;
  rq_target : str;
  rq_version : str;
  rq_msg : message
}.

Record response := mkResponse {
  rs_version : str;
  rs_status : N;
  rs_reason : str;
  rs_msg : message
}.

Definition set_body (b : body) (m : message) : message :=
  mkMessage m.(entries) m.(trailer) b m.(offset) m.(notes).
Definition set_trailer (t : list entry) (m : message) : message :=
  mkMessage m.(entries) t m.(mbody) m.(offset) m.(notes).
Definition msg_complain (n : note) (m : message) : message :=
  mkMessage m.(entries) m.(trailer) m.(mbody) m.(offset) (add_note n m.(notes)).

(** What the framing code calls in other modules and libraries:
    the parser of one Transfer-Encoding field value ([None] = [ParseError];
    an element is a coding name, or [None] for [Unavailable]),
    and the gzip and zlib decoders ([None] = they raise). *)
Record env := mkEnv {
  te_parse : str -> option (list (option str));
  gunzip : str -> option str;
  inflate : str -> option str
}.

Definition is_field (name : string) (e : entry) : bool := ci_eqb (s name) (fst e).

(** [msg.headers.transfer_encoding.value]: a [MultiHeaderView]
    (httpolice/header.py:298-322) over the header entries (the trailer is
    still empty when framing looks at it).  Transfer-Encoding always parses to
    a list, so the "singular" branch does not arise. *)
Definition te_value (E : env) (es : list entry) : list (option str) :=
  flat_map (fun e => if is_field "Transfer-Encoding" e
                     then match E.(te_parse) (snd e) with
                          | Some l => l
                          | None => [None]
                          end
                     else []) es.

Inductive cl := ClAbsent | ClBad | ClOk (n : N).

(** The value of a Content-Length field: [1*DIGIT]
    (httpolice/syntax/rfc7230.py, [Content_Length]). *)
Definition cl_parse (v : str) : cl :=
  if negb (is_nil v) && forallb is_digit v then ClOk (dec_value v) else ClBad.

(** [msg.headers.content_length.value]: a [SingleHeaderView]
    (httpolice/header.py:282-295): the last entry wins. *)
Definition cl_value (es : list entry) : cl :=
  match rev (filter (is_field "Content-Length") es) with
  | [] => ClAbsent
  | e :: _ => cl_parse (snd e)
  end.

(** [coding == tc.chunked] etc. on an element of the Transfer-Encoding value. *)
Definition coding_is (name : string) (c : option str) : bool :=
  match c with Some x => ci_eqb x (s name) | None => false end.

(** httpolice/framing1.py:27: [^HTTP/[0-9]\.[0-9]$] on a string without LF. *)
Definition is_http_version (x : str) : bool :=
  match x with
  | [c1; c2; c3; c4; c5; d1; c6; d2] =>
      str_eqb [c1; c2; c3; c4; c5; c6] (s "HTTP/.") && is_digit d1 && is_digit d2
  | _ => false
  end.

(** httpolice/framing1.py:28: [^[0-9]{3}$] *)
Definition is_status_code (x : str) : bool :=
  match x with
  | [d1; d2; d3] => is_digit d1 && is_digit d2 && is_digit d3
  | _ => false
  end.

(** Read the continuation lines of a header field:
    httpolice/framing1.py:254-257.  [fuel] bounds the number of lines. *)
Fixpoint fold_lines (fuel : nat) (vs : str) : M str :=
  match fuel with
  | O => fun st => (Fuel, st)
  | S fuel' =>
      c <- peek ;;
      match c with
      | Some c =>
          if is_blank c then
            _ <- complain 1016 ;;
            l <- readline ;;
            fold_lines fuel' (vs ++ 32 :: lstrip l)
          else ret vs
      | None => ret vs
      end
  end.

(** httpolice/framing1.py:246-261.  [fuel] bounds the number of fields. *)
Fixpoint header_fields (fuel : nat) (acc : list entry) : M (list entry) :=
  match fuel with
  | O => fun st => (Fuel, st)
  | S fuel' =>
      c <- peek ;;
      match c with
      | None => ret acc
      | Some c =>
          if (c =? 13) || (c =? 10) then ret acc else
          p <- tell ;;
          line <- readline ;;
          match partition_at 58 line with
          | None => raise_error p ExpNothing
          | Some (name, v) =>
              vs <- fold_lines fuel' v ;;
              header_fields fuel' (acc ++ [(name, strip vs)])
          end
      end
  end.

(** httpolice/framing1.py:239-261; the fuel is more than the number of bytes
    left, and every turn reads at least one byte. *)
Definition parse_header_fields : M (list entry) :=
  fun st => header_fields (S (S (List.length st.(rest)))) [] st.

(** httpolice/stream.py:95-99 *)
Definition dump_complaints (p : place) (m : message) : M message :=
  fun st => (Val (fold_left (fun m id => msg_complain (mkNote id (CtxPlace p)) m)
                            st.(pending) m),
             clear_pending st).

(** httpolice/framing1.py:103-119.  [scheme] is passed through unchanged by
    the code and left out. *)
Definition parse_request_heading : M request :=
  beginning <- tell ;;
  line <- readline ;;
  match split_on 32 line with
  | [meth; target; version] =>
      if is_http_version version then
        es <- parse_header_fields ;;
        _ <- readlineend ;;
        m <- dump_complaints RequestHeading (mkMessage es [] (Unavail None) beginning []) ;;
        ret (mkRequest meth target version m)
      else raise_error beginning ExpNothing
  | _ => raise_error beginning ExpNothing
  end.

(** httpolice/framing1.py:122-137; [None] is a malformed value. *)
Definition process_content_length (n : option N) (m : message) : M message :=
  match n with
  | None => fun st => (Val (set_body (Unavail None) m), set_sane false st)
  | Some n =>
      if (MAX_BODY_SIZE <? Z.of_N n)%Z then
        fun st => (Val (msg_complain (mkNote 1298 (CtxSize ContentLengthField (Z.of_N n)))
                                     (set_body (Unavail None) m)),
                   set_sane false st)
      else
        fun st =>
          match read (Z.of_N n) st with
          | (Val b, st') => (Val (set_body (Body b) m), st')
          | (ParseErr e, st') =>
              (Val (msg_complain (mkNote 1004 (CtxError e)) (set_body (Unavail None) m)), st')
          | (TooLong z, st') => (TooLong z, st')
          | (ValueErr, st') => (ValueErr, st')
          | (Fuel, st') => (Fuel, st')
          end
  end.

(** Python's [int(x, 16)] on an ISO-8859-1 string: surrounding whitespace, a
    sign, a [0x] prefix and single underscores between digits are accepted.
    [None] is [ValueError]. *)
Definition hex_val (c : N) : option N :=
  if is_digit c then Some (c - 48)
  else if (97 <=? c) && (c <=? 102) then Some (c - 87)
  else if (65 <=? c) && (c <=? 70) then Some (c - 55)
  else None.

Fixpoint hex_run (acc : N) (x : str) : option N :=
  match x with
  | [] => Some acc
  | c :: x' =>
      match hex_val c with
      | Some d => hex_run (16 * acc + d) x'
      | None =>
          if c =? 95 then
            match x' with
            | c2 :: x'' =>
                match hex_val c2 with
                | Some d => hex_run (16 * acc + d) x''
                | None => None
                end
            | [] => None
            end
          else None
      end
  end.

Definition hex_digits (x : str) : option N :=
  match x with
  | c :: x' => match hex_val c with Some d => hex_run d x' | None => None end
  | [] => None
  end.

(** The white space [int] ignores around the number (ISO-8859-1 range). *)
Definition py_space (c : N) : bool :=
  ((9 <=? c) && (c <=? 13)) || (c =? 32) || (c =? 133) || (c =? 160).

Fixpoint py_lstrip (x : str) : str :=
  match x with c :: x' => if py_space c then py_lstrip x' else x | [] => [] end.
Definition py_strip (x : str) : str := rev (py_lstrip (rev (py_lstrip x))).

Definition hex_unsigned (x : str) : option N :=
  match x with
  | z :: c :: x' =>
      if (z =? 48) && ((c =? 120) || (c =? 88)) then
        match x' with
        | u :: x'' => if u =? 95 then hex_digits x'' else hex_digits x'
        | [] => None
        end
      else hex_digits x
  | _ => hex_digits x
  end.

Definition py_int16 (x : str) : option Z :=
  match py_strip x with
  | c :: y =>
      if c =? 45 then option_map (fun n => (- Z.of_N n)%Z) (hex_unsigned y)
      else if c =? 43 then option_map Z.of_N (hex_unsigned y)
      else option_map Z.of_N (hex_unsigned (c :: y))
  | [] => None
  end.

(** httpolice/framing1.py:296-313: [Some data] is [True] (a chunk was read),
    [None] is [False] (the last chunk). [current] is [sum(len(c) for c in data)]. *)
Definition parse_chunk (current : N) : M (option str) :=
  p <- tell ;;
  line <- readline ;;
  let size_s := match partition_at 59 line with Some (a, _) => a | None => line end in
  match py_int16 (rstrip size_s) with
  | None => raise_error p ExpNothing
  | Some size =>
      if (size =? 0)%Z then ret None
      else if (MAX_BODY_SIZE <? size + Z.of_N current)%Z then
        fun st => (TooLong (size + Z.of_N current), set_sane false st)
      else
        d <- read size ;;
        _ <- readlineend ;;
        ret (Some d)
  end.

(** httpolice/framing1.py:320-321: [while _parse_chunk(stream, data): pass] *)
Fixpoint chunks_loop (fuel : nat) (acc : str) : M str :=
  match fuel with
  | O => fun st => (Fuel, st)
  | S fuel' =>
      d <- parse_chunk (lenN acc) ;;
      match d with
      | None => ret acc
      | Some d => chunks_loop fuel' (acc ++ d)
      end
  end.

Definition parse_chunks : M str :=
  fun st => chunks_loop (S (List.length st.(rest))) [] st.

Definition chunked_framing : M (str * list entry) :=
  data <- parse_chunks ;;
  t <- parse_header_fields ;;
  _ <- readlineend ;;
  ret (data, t).

(** httpolice/framing1.py:316-336 *)
Definition parse_chunked (m : message) : M message :=
  fun st =>
    match chunked_framing st with
    | (ParseErr e, st') =>
        (Val (set_body (Unavail None) (msg_complain (mkNote 1005 (CtxError e)) m)), st')
    | (TooLong z, st') =>
        (Val (set_body (Unavail None) (msg_complain (mkNote 1298 (CtxSize ChunkedFraming z)) m)), st')
    | (Val (data, t), st') =>
        match dump_complaints ChunkedFraming m st' with
        | (Val m', st'') => (Val (set_trailer t (set_body (Body data) m')), st'')
        | (ParseErr e, st'') => (ParseErr e, st'')
        | (TooLong z, st'') => (TooLong z, st'')
        | (ValueErr, st'') => (ValueErr, st'')
        | (Fuel, st'') => (Fuel, st'')
        end
    | (ValueErr, st') => (ValueErr, st')
    | (Fuel, st') => (Fuel, st')
    end.

Definition inner_body (b : body) : option str :=
  match b with Body x => Some x | Unavail i => i end.

(** httpolice/framing1.py:264-284; called only when the body is okay. *)
Definition decode_transfer_coding (E : env) (c : option str) (m : message) : message :=
  if coding_is "chunked" c then
    let m := msg_complain (mkNote 1002 CtxNone) m in
    set_body (Unavail (inner_body m.(mbody))) m
  else if coding_is "gzip" c || coding_is "x-gzip" c || coding_is "deflate" c then
    let name := match c with Some x => x | None => [] end in
    match m.(mbody) with
    | Body b =>
        match (if coding_is "deflate" c then E.(inflate) b else E.(gunzip) b) with
        | Some b' => set_body (Body b') m
        | None => set_body (Unavail (Some b)) (msg_complain (mkNote 1027 (CtxCoding name)) m)
        end
    | Unavail i => set_body (Unavail i) m
    end
  else
    let m := match c with
             | Some x => msg_complain (mkNote 1003 (CtxCoding x)) m
             | None => m
             end in
    set_body (Unavail (inner_body m.(mbody))) m.

(** httpolice/framing1.py:151-152 and 229-230; [rcs] is the list of codings
    from last to first, so that [codings.pop()] takes its head. *)
Fixpoint decode_codings (E : env) (rcs : list (option str)) (m : message) : message :=
  match rcs with
  | [] => m
  | c :: rcs' =>
      if body_okay m.(mbody)
      then decode_codings E rcs' (decode_transfer_coding E c m)
      else m
  end.

(** httpolice/framing1.py:140-158 *)
Definition parse_request_body (E : env) (m : message) : M message :=
  match rev (te_value E m.(entries)) with
  | c :: rcs =>
      if coding_is "chunked" c then
        m' <- parse_chunked m ;;
        ret (decode_codings E rcs m')
      else
        fun st => (Val (msg_complain (mkNote 1001 CtxNone) (set_body (Unavail None) m)),
                   set_sane false st)
  | [] =>
      match cl_value m.(entries) with
      | ClAbsent => ret (set_body (Body []) m)
      | ClOk n => if n =? 0 then ret (set_body (Body []) m)
                  else process_content_length (Some n) m
      | ClBad => process_content_length None m
      end
  end.

Definition set_rq_msg (m : message) (r : request) : request :=
  mkRequest r.(rq_method) r.(rq_target) r.(rq_version) m.
Definition set_rs_msg (m : message) (r : response) : response :=
  mkResponse r.(rs_version) r.(rs_status) r.(rs_reason) m.

(** What parse_streams yields: a real exchange, or a complaint box
    (httpolice/exchange.py:46-54) with its notice. *)
Inductive box :=
| BoxError (id : N) (e : perror)        (* 1006, 1009 *)
| BoxOffset (id : N) (offset : N)       (* 1007, 1010 *)
| BoxPlain (id : N).                    (* 1008 *)

Inductive exchange :=
| Exchange (req : option request) (resps : list response)
| ComplaintBox (b : box).

(** httpolice/framing1.py:93-100: [inl] is the request, [inr] the box. *)
Definition parse_request (E : env) : M (request + box) :=
  fun st =>
    match parse_request_heading st with
    | (ParseErr e, st') => (Val (inr (BoxError 1006 e)), st')
    | (Val r, st') =>
        (m <- parse_request_body E r.(rq_msg) ;; ret (inl (set_rq_msg m r))) st'
    | (TooLong z, st') => (TooLong z, st')
    | (ValueErr, st') => (ValueErr, st')
    | (Fuel, st') => (Fuel, st')
    end.

(** httpolice/framing1.py:180-200.  [StatusCode(pieces[1])] is the decimal
    value of the three digits. *)
Definition parse_response_heading : M response :=
  beginning <- tell ;;
  line <- readline ;;
  match split_on_2 32 line with
  | [version; status; reason] =>
      if is_http_version version && is_status_code status then
        es <- parse_header_fields ;;
        _ <- readlineend ;;
        m <- dump_complaints ResponseHeading (mkMessage es [] (Unavail None) beginning []) ;;
        ret (mkResponse version (dec_value status) reason m)
      else raise_error beginning ExpNothing
  | _ => raise_error beginning ExpNothing
  end.

(** httpolice/structure.py:201-205 *)
Definition informational (status : N) : bool := (100 <=? status) && (status <=? 199).
Definition successful (status : N) : bool := (200 <=? status) && (status <=? 299).

(** [req and req.method == m.X]; methods are case-sensitive. *)
Definition method_is (name : string) (req : option request) : bool :=
  match req with Some r => str_eqb r.(rq_method) (s name) | None => false end.

Definition set_insane {A} (a : A) : M A := fun st => (Val a, set_sane false st).

(** httpolice/framing1.py:203-236 *)
Definition parse_response_body (E : env) (req : option request) (status : N) (m : message)
  : M message :=
  if status =? 101 then
    set_insane (msg_complain (mkNote 1011 CtxNone) (set_body (Body []) m))
  else if method_is "CONNECT" req && successful status then
    set_insane (msg_complain (mkNote 1012 CtxNone) (set_body (Body []) m))
  else if informational status || ((status =? 204) || (status =? 304))
          || method_is "HEAD" req then
    ret (set_body (Body []) m)
  else
    match rev (te_value E m.(entries)) with
    | c :: rcs =>
        if coding_is "chunked" c then
          m' <- parse_chunked m ;;
          ret (decode_codings E rcs m')
        else
          b <- read (-1) ;;
          ret (decode_codings E (c :: rcs) (set_body (Body b) m))
    | [] =>
        match cl_value m.(entries) with
        | ClOk n => process_content_length (Some n) m
        | ClBad => process_content_length None m
        | ClAbsent =>
            b <- read (-1) ;;
            ret (set_body (Body b) m)
        end
    end.

(** httpolice/framing1.py:161-177 *)
Fixpoint responses_loop (fuel : nat) (E : env) (req : option request) (acc : list response)
  : M (list response * option box) :=
  match fuel with
  | O => fun st => (Fuel, st)
  | S fuel' =>
      fun st =>
        if good st then
          match parse_response_heading st with
          | (ParseErr e, st') => (Val (acc, Some (BoxError 1009 e)), st')
          | (Val r, st') =>
              (m <- parse_response_body E req r.(rs_status) r.(rs_msg) ;;
               let acc := acc ++ [set_rs_msg m r] in
               if negb (informational r.(rs_status)) || (r.(rs_status) =? 101)
               then ret (acc, None)
               else responses_loop fuel' E req acc) st'
          | (TooLong z, st') => (TooLong z, st')
          | (ValueErr, st') => (ValueErr, st')
          | (Fuel, st') => (Fuel, st')
          end
        else (Val (acc, None), st)
  end.

Definition parse_responses (E : env) (req : option request) : M (list response * option box) :=
  fun st => responses_loop (S (List.length st.(rest))) E req [] st.

Definition opt_box (b : option box) : list exchange :=
  match b with Some b => [ComplaintBox b] | None => [] end.

(** How the consumption of the generator ended. *)
Inductive ending := Finished | Raised_ValueError | Raised_Other | OutOfFuel.

Definition ending_of {A} (o : outcome A) : ending :=
  match o with
  | Val _ => Finished
  | ValueErr => Raised_ValueError
  | Fuel => OutOfFuel
  | ParseErr _ | TooLong _ => Raised_Other
  end.

(** [resps[-1]] *)
Definition last_response (l : list response) : option response :=
  match rev l with r :: _ => Some r | [] => None end.

(** httpolice/framing1.py:61-65: does the outbound traffic end the
    HTTP conversation? *)
Definition ends_http (req : request) (resps : list response) : bool :=
  match last_response resps with
  | Some r => (r.(rs_status) =? 101)
              || (method_is "CONNECT" (Some req) && successful r.(rs_status))
  | None => false
  end.

Record result := mkResult {
  yielded : list exchange;
  inb : option stream;
  outb : option stream;
  how : ending
}.

(** httpolice/framing1.py:55-70: the loop over the inbound stream. *)
Fixpoint requests_loop (fuel : nat) (E : env) (acc : list exchange)
    (i : stream) (o : option stream) : result :=
  match fuel with
  | O => mkResult acc (Some i) o OutOfFuel
  | S fuel' =>
      if good i then
        match parse_request E i with
        | (Val (inr b), i') => requests_loop fuel' E (acc ++ [ComplaintBox b]) i' o
        | (Val (inl req), i') =>
            match o with
            | Some os =>
                if good os then
                  match parse_responses E (Some req) os with
                  | (Val (resps, rb), os') =>
                      let i'' := if ends_http req resps then set_sane false i' else i' in
                      requests_loop fuel' E
                        (acc ++ [Exchange (Some req) resps] ++ opt_box rb) i'' (Some os')
                  | (e, os') => mkResult acc (Some i') (Some os') (ending_of e)
                  end
                else requests_loop fuel' E (acc ++ [Exchange (Some req) []]) i' o
            | None => requests_loop fuel' E (acc ++ [Exchange (Some req) []]) i' o
            end
        | (e, i') => mkResult acc (Some i') o (ending_of e)
        end
      else mkResult acc (Some i) o Finished
  end.

(** httpolice/framing1.py:81-86: the loop over the outbound stream alone. *)
Fixpoint orphans_loop (fuel : nat) (E : env) (acc : list exchange) (i : option stream)
    (o : stream) : result :=
  match fuel with
  | O => mkResult acc i (Some o) OutOfFuel
  | S fuel' =>
      if good o then
        match parse_responses E None o with
        | (Val (resps, rb), o') =>
            orphans_loop fuel' E
              (acc ++ (if is_nil resps then [] else [Exchange None resps]) ++ opt_box rb) i o'
        | (e, o') => mkResult acc i (Some o') (ending_of e)
        end
      else mkResult acc i (Some o) Finished
  end.

Definition loop_fuel (st : stream) : nat := S (S (List.length st.(rest))).

(** httpolice/framing1.py:34-90, consumed to its end by the caller. *)
Definition parse_streams (E : env) (inbound outbound : option stream) : result :=
  let r1 := match inbound with
            | Some i => requests_loop (loop_fuel i) E [] i outbound
            | None => mkResult [] None outbound Finished
            end in
  match r1.(how) with
  | Finished =>
      let acc := r1.(yielded) ++
                 match r1.(inb) with
                 | Some i => if i.(eof) then [] else [ComplaintBox (BoxOffset 1007 i.(pos))]
                 | None => []
                 end in
      match r1.(outb) with
      | Some o =>
          let r2 := if good o then
                      let acc := acc ++ match r1.(inb) with
                                        | Some _ => [ComplaintBox (BoxPlain 1008)]
                                        | None => []
                                        end in
                      orphans_loop (loop_fuel o) E acc r1.(inb) o
                    else mkResult acc r1.(inb) (Some o) Finished in
          match r2.(how), r2.(outb) with
          | Finished, Some o' =>
              mkResult (r2.(yielded) ++
                        if o'.(eof) then [] else [ComplaintBox (BoxOffset 1010 o'.(pos))])
                       r2.(inb) (Some o') Finished
          | _, _ => r2
          end
      | None => mkResult acc r1.(inb) None Finished
      end
  | _ => r1
  end.
