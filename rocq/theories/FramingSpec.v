(** What an HTTP/1.x message looks like on the wire, stated without reference
    to the parser.  Nothing here models code: these definitions are the
    specification the framing theorems are stated against.  (The record types
    of messages and [py_int16] are shared with Framing.v.) *)
From Verif Require Import Base Stream Framing.

(** * Lines *)

(** A line, and whether it ends in CR LF or in a bare LF. *)
Record wline := mkLine { text : str; crlf_end : bool }.

Definition eol (crlf : bool) : str := if crlf then [13; 10] else [10].
Definition render_line (l : wline) : str := l.(text) ++ eol l.(crlf_end).

Definition line_ok (l : wline) : Prop :=
  ~ In 10 l.(text) /\
  (l.(crlf_end) = false -> forall x, l.(text) <> x ++ [13]) /\
  lenN (render_line l) <= 16384.

(** Notice 1224: bare LF instead of CR LF. *)
Definition eol_notes (crlf : bool) : list N := if crlf then [] else [1224].
Definition line_notes (l : wline) : list N := eol_notes l.(crlf_end).

(** * Header fields *)

(** A field: its name, the rest of its first line after the colon, how that
    line ends, and any continuation lines. *)
Record wfield := mkField {
  f_name : str;
  f_raw : str;
  f_crlf : bool;
  f_conts : list wline
}.

Definition f_line (f : wfield) : wline := mkLine (f.(f_name) ++ 58 :: f.(f_raw)) f.(f_crlf).

Definition starts_blank (x : str) : Prop := exists c r, x = c :: r /\ is_blank c = true.

Definition field_ok (f : wfield) : Prop :=
  ~ In 58 f.(f_name) /\
  line_ok (f_line f) /\
  (forall x, f.(f_name) <> 13 :: x) /\
  Forall (fun l => line_ok l /\ starts_blank l.(text)) f.(f_conts).

Definition render_lines (ls : list wline) : str := flat_map render_line ls.
Definition render_field (f : wfield) : str := render_line (f_line f) ++ render_lines f.(f_conts).
Definition render_fields (fs : list wfield) : str := flat_map render_field fs.

(** [y] is [x] without the spaces and tabs around it. *)
Definition stripped (x y : str) : Prop :=
  exists b1 b2, x = b1 ++ y ++ b2 /\ Forall (fun c => is_blank c = true) b1 /\
                Forall (fun c => is_blank c = true) b2 /\ trimmed y.

(** [y] is [x] without the spaces and tabs before it. *)
Definition left_stripped (x y : str) : Prop :=
  exists b, x = b ++ y /\ Forall (fun c => is_blank c = true) b /\
            (forall c r, y = c :: r -> is_blank c = false).

(** The unfolded value: the pieces joined by one space each, then stripped. *)
Definition field_entry (f : wfield) (e : entry) : Prop :=
  fst e = f.(f_name) /\
  exists pieces,
    Forall2 (fun l p => left_stripped l.(text) p) f.(f_conts) pieces /\
    stripped (f.(f_raw) ++ flat_map (fun p => 32 :: p) pieces) (snd e).

(** Notice 1016 for every continuation line. *)
Definition field_notes (f : wfield) : list N :=
  line_notes (f_line f) ++ flat_map (fun l => 1016 :: line_notes l) f.(f_conts).
Definition fields_notes (fs : list wfield) : list N := flat_map field_notes fs.

(** Only the very first field line may start with a blank (after that it would
    be a continuation). *)
Definition fields_ok (fs : list wfield) : Prop :=
  Forall field_ok fs /\ Forall (fun f => ~ starts_blank (f_line f).(text)) (tl fs).

(** A block of fields and the empty line after it. *)
Definition block_on_wire (es : list entry) (ids : list N) (w : str) : Prop :=
  exists fs crlf,
    fields_ok fs /\ Forall2 field_entry fs es /\
    w = render_fields fs ++ eol crlf /\
    ids = fields_notes fs ++ eol_notes crlf.

(** * Headings *)

(** A decimal number. *)
Inductive decimal : str -> N -> Prop :=
| dec_one c : 48 <= c <= 57 -> decimal [c] (c - 48)
| dec_more x n c : decimal x n -> 48 <= c <= 57 -> decimal (x ++ [c]) (10 * n + (c - 48)).

Definition http_version (v : str) : Prop :=
  exists c d, v = s "HTTP/" ++ [c; 46; d] /\ 48 <= c <= 57 /\ 48 <= d <= 57.

Definition request_line (meth target version : str) : str :=
  meth ++ 32 :: target ++ 32 :: version.

Definition request_heading_on_wire (meth target version : str) (es : list entry)
    (ids : list N) (w : str) : Prop :=
  ~ In 32 meth /\ ~ In 32 target /\ http_version version /\
  exists l ids' w',
    text l = request_line meth target version /\ line_ok l /\
    block_on_wire es ids' w' /\
    w = render_line l ++ w' /\ ids = line_notes l ++ ids'.

Definition status_line (version status reason : str) : str :=
  version ++ 32 :: status ++ 32 :: reason.

Definition response_heading_on_wire (version : str) (status : N) (reason : str)
    (es : list entry) (ids : list N) (w : str) : Prop :=
  http_version version /\
  exists digits l ids' w',
    List.length digits = 3%nat /\ decimal digits status /\
    text l = status_line version digits reason /\ line_ok l /\
    block_on_wire es ids' w' /\
    w = render_line l ++ w' /\ ids = line_notes l ++ ids'.

(** * Chunked bodies *)

(** The size on a chunk line, before any extension: what Python's [int(x, 16)]
    makes of it without trailing blanks (see C20 for how this differs from
    [1*HEXDIG]). *)
Definition chunk_size (t : str) (n : N) : Prop := py_int16 (rstrip t) = Some (Z.of_N n).

Record wchunk := mkChunk {
  c_size : str;
  c_ext : option str;           (* after the semicolon *)
  c_crlf : bool;
  c_data : str;
  c_data_crlf : bool
}.

Definition c_line (c : wchunk) : wline :=
  mkLine (c.(c_size) ++ match c.(c_ext) with Some x => 59 :: x | None => [] end) c.(c_crlf).

Definition chunk_ok (c : wchunk) : Prop :=
  ~ In 59 c.(c_size) /\ line_ok (c_line c) /\
  chunk_size c.(c_size) (lenN c.(c_data)) /\ c.(c_data) <> [].

Definition render_chunk (c : wchunk) : str :=
  render_line (c_line c) ++ c.(c_data) ++ eol c.(c_data_crlf).
Definition chunk_notes (c : wchunk) : list N :=
  line_notes (c_line c) ++ eol_notes c.(c_data_crlf).

(** The chunks, the last chunk and the trailer. *)
Definition chunked_on_wire (payload : str) (tr : list entry) (ids : list N) (w : str) : Prop :=
  exists cs last ids' w',
    Forall chunk_ok cs /\
    payload = flat_map c_data cs /\ lenN payload <= 1073741824 /\
    ~ In 59 last.(c_size) /\ line_ok (c_line last) /\ chunk_size last.(c_size) 0 /\
    block_on_wire tr ids' w' /\
    w = flat_map render_chunk cs ++ render_line (c_line last) ++ w' /\
    ids = flat_map chunk_notes cs ++ line_notes (c_line last) ++ ids'.

(** Removing further transfer codings, the outermost (last) first. *)
Inductive decodes (E : env) : list (option str) -> str -> str -> Prop :=
| dec_nil b : decodes E [] b b
| dec_gzip c cs b b1 b2 :
    ci_eqb c (s "gzip") = true \/ ci_eqb c (s "x-gzip") = true ->
    E.(gunzip) b = Some b1 -> decodes E cs b1 b2 -> decodes E (Some c :: cs) b b2
| dec_deflate c cs b b1 b2 :
    ci_eqb c (s "deflate") = true ->
    E.(inflate) b = Some b1 -> decodes E cs b1 b2 -> decodes E (Some c :: cs) b b2.

Definition is_chunked (c : option str) : Prop :=
  exists x, c = Some x /\ ci_eqb x (s "chunked") = true.

(** * The framing fields *)

Definition named (name : string) (e : entry) : Prop := lower (fst e) = lower (s name).
Definition absent (name : string) (es : list entry) : Prop := Forall (fun e => ~ named name e) es.

(** The last Content-Length field decides, and must be a decimal number. *)
Definition content_length (es : list entry) (n : N) : Prop :=
  exists pre e post, es = pre ++ e :: post /\ named "Content-Length" e /\
                     absent "Content-Length" post /\ decimal (snd e) n.

(** All the Transfer-Encoding fields together; a field that does not parse
    counts as one unknown coding. *)
Inductive transfer_codings (E : env) : list entry -> list (option str) -> Prop :=
| tc_nil : transfer_codings E [] []
| tc_other e es cs :
    ~ named "Transfer-Encoding" e -> transfer_codings E es cs -> transfer_codings E (e :: es) cs
| tc_parsed e es cs l :
    named "Transfer-Encoding" e -> E.(te_parse) (snd e) = Some l ->
    transfer_codings E es cs -> transfer_codings E (e :: es) (l ++ cs)
| tc_malformed e es cs :
    named "Transfer-Encoding" e -> E.(te_parse) (snd e) = None ->
    transfer_codings E es cs -> transfer_codings E (e :: es) (None :: cs).

(** * Bodies: which bytes follow the heading, what body they carry *)

Inductive request_body_on_wire (E : env) (es : list entry) :
  str -> list entry -> list N -> str -> Prop :=
| rqb_none :
    transfer_codings E es [] -> absent "Content-Length" es ->
    request_body_on_wire E es [] [] [] []
| rqb_length n b :
    transfer_codings E es [] -> content_length es n -> n <= 1073741824 -> lenN b = n ->
    request_body_on_wire E es b [] [] b
| rqb_chunked codings c payload b tr ids w :
    transfer_codings E es (codings ++ [c]) -> is_chunked c ->
    chunked_on_wire payload tr ids w -> decodes E (rev codings) payload b ->
    request_body_on_wire E es b tr ids w.

(** Responses that never have a body. *)
Definition bodiless (req : option request) (status : N) : Prop :=
  100 <= status <= 199 \/ status = 204 \/ status = 304 \/
  (exists r, req = Some r /\ rq_method r = s "HEAD").

(** Responses after which the connection is no longer HTTP. *)
Definition switches (req : option request) (status : N) : Prop :=
  status = 101 \/
  (200 <= status <= 299 /\ exists r, req = Some r /\ rq_method r = s "CONNECT").

(** [last] says that the body extends to the end of the data. *)
Inductive response_body_on_wire (E : env) (req : option request) (status : N)
    (es : list entry) : str -> list entry -> list N -> str -> bool -> Prop :=
| rsb_none :
    ~ switches req status -> bodiless req status ->
    response_body_on_wire E req status es [] [] [] [] false
| rsb_length n b :
    ~ switches req status -> ~ bodiless req status ->
    transfer_codings E es [] -> content_length es n -> n <= 1073741824 -> lenN b = n ->
    response_body_on_wire E req status es b [] [] b false
| rsb_chunked codings c payload b tr ids w :
    ~ switches req status -> ~ bodiless req status ->
    transfer_codings E es (codings ++ [c]) -> is_chunked c ->
    chunked_on_wire payload tr ids w -> decodes E (rev codings) payload b ->
    response_body_on_wire E req status es b tr ids w false
| rsb_close b :
    ~ switches req status -> ~ bodiless req status ->
    transfer_codings E es [] -> absent "Content-Length" es ->
    response_body_on_wire E req status es b [] [] b true
| rsb_close_coded codings c payload b :
    ~ switches req status -> ~ bodiless req status ->
    transfer_codings E es (codings ++ [c]) -> ~ is_chunked c ->
    decodes E (rev (codings ++ [c])) payload b ->
    response_body_on_wire E req status es b [] [] payload true.

(** * Whole messages *)

(** Each id once, in order of first appearance. *)
Fixpoint once (seen ids : list N) : list N :=
  match ids with
  | [] => []
  | x :: r => if existsb (N.eqb x) seen then once seen r else x :: once (x :: seen) r
  end.

Definition place_notes (p : place) (ids : list N) : list note :=
  map (fun id => mkNote id (CtxPlace p)) (once [] ids).

Definition request_on_wire (E : env) (at_ : N) (r : request) (w : str) : Prop :=
  exists es b tr ids1 ids2 w1 w2,
    request_heading_on_wire r.(rq_method) r.(rq_target) r.(rq_version) es ids1 w1 /\
    request_body_on_wire E es b tr ids2 w2 /\
    w = w1 ++ w2 /\
    r.(rq_msg) = mkMessage es tr (Body b) at_
                   (place_notes RequestHeading ids1 ++ place_notes ChunkedFraming ids2).

Definition response_on_wire (E : env) (req : option request) (at_ : N) (r : response)
    (w : str) (last : bool) : Prop :=
  exists es b tr ids1 ids2 w1 w2,
    response_heading_on_wire r.(rs_version) r.(rs_status) r.(rs_reason) es ids1 w1 /\
    response_body_on_wire E req r.(rs_status) es b tr ids2 w2 last /\
    w = w1 ++ w2 /\
    r.(rs_msg) = mkMessage es tr (Body b) at_
                   (place_notes ResponseHeading ids1 ++ place_notes ChunkedFraming ids2).

(** A response that switches protocols: only its heading is HTTP. *)
Definition switching_on_wire (req : option request) (at_ : N) (r : response) (w : str) : Prop :=
  exists es ids1,
    response_heading_on_wire r.(rs_version) r.(rs_status) r.(rs_reason) es ids1 w /\
    switches req r.(rs_status) /\
    r.(rs_msg) = mkMessage es [] (Body []) at_
                   (place_notes ResponseHeading ids1 ++
                    [mkNote (if r.(rs_status) =? 101 then 1011 else 1012) CtxNone]).

(** * Conversations *)

(** What follows a group of responses on the outbound stream: anything, or
    nothing because the body of the last one extends to the end of the data
    (or the data ends after an interim response), or bytes of a protocol that
    is no longer HTTP. *)
Inductive finish := More | Closed | Switched.

(** The responses to one request: any number of interim (1xx) ones, then a
    final one.  [req] is [None] when the request is not known. *)
Inductive responses_on_wire (E : env) (req : option request) :
  N -> list response -> str -> finish -> Prop :=
| row_final at_ r w last :
    response_on_wire E req at_ r w last -> ~ (100 <= rs_status r <= 199) ->
    responses_on_wire E req at_ [r] w (if last then Closed else More)
| row_switch at_ r w :
    switching_on_wire req at_ r w ->
    responses_on_wire E req at_ [r] w Switched
| row_cut at_ r w :
    response_on_wire E req at_ r w false -> 100 <= rs_status r <= 199 ->
    responses_on_wire E req at_ [r] w Closed
| row_interim at_ r w rs ws f :
    response_on_wire E req at_ r w false -> 100 <= rs_status r <= 199 ->
    responses_on_wire E req (at_ + lenN w) rs ws f ->
    responses_on_wire E req at_ (r :: rs) (w ++ ws) f.

Definition follows (f : finish) (tail : str) : Prop :=
  match f with More => True | Closed => tail = [] | Switched => False end.

(** Bytes that are not HTTP are reported by their offset. *)
Definition unread_box (id at_ : N) (w : str) : list exchange :=
  match w with [] => [] | _ => [ComplaintBox (BoxOffset id at_)] end.

(** Responses to unknown requests. *)
Inductive orphans_on_wire (E : env) : N -> list exchange -> str -> Prop :=
| ow_done at_ : orphans_on_wire E at_ [] []
| ow_step at_ rs w f ys tail :
    responses_on_wire E None at_ rs w f -> follows f tail ->
    orphans_on_wire E (at_ + lenN w) ys tail ->
    orphans_on_wire E at_ (Exchange None rs :: ys) (w ++ tail)
| ow_switch at_ rs w tunnel :
    responses_on_wire E None at_ rs w Switched ->
    orphans_on_wire E at_ (Exchange None rs :: unread_box 1010 (at_ + lenN w) tunnel) (w ++ tunnel).

(** A conversation: the two offsets, the exchanges, the inbound and the
    outbound bytes. *)
Inductive conversation (E : env) : N -> N -> list exchange -> str -> str -> Prop :=
| cv_done ai ao : conversation E ai ao [] [] []
| cv_orphans ai ao ys wo :
    wo <> [] -> orphans_on_wire E ao ys wo ->
    conversation E ai ao (ComplaintBox (BoxPlain 1008) :: ys) [] wo
| cv_unanswered ai ao req w ys ti :
    request_on_wire E ai req w ->
    conversation E (ai + lenN w) ao ys ti [] ->
    conversation E ai ao (Exchange (Some req) [] :: ys) (w ++ ti) []
| cv_answered ai ao req wi rs wo f ys ti to :
    request_on_wire E ai req wi -> responses_on_wire E (Some req) ao rs wo f -> follows f to ->
    conversation E (ai + lenN wi) (ao + lenN wo) ys ti to ->
    conversation E ai ao (Exchange (Some req) rs :: ys) (wi ++ ti) (wo ++ to)
| cv_switched ai ao req wi rs wo ti to :
    request_on_wire E ai req wi -> responses_on_wire E (Some req) ao rs wo Switched ->
    conversation E ai ao
      (Exchange (Some req) rs :: unread_box 1007 (ai + lenN wi) ti ++ unread_box 1010 (ao + lenN wo) to)
      (wi ++ ti) (wo ++ to).

(** Nothing went wrong in the framing: no heading was malformed and every body
    could be recovered. *)
Definition clean_request (r : request) : bool := body_okay (mbody (rq_msg r)).
Definition clean_response (r : response) : bool := body_okay (mbody (rs_msg r)).
Definition clean_exchange (x : exchange) : bool :=
  match x with
  | Exchange req resps =>
      match req with Some r => clean_request r | None => true end && forallb clean_response resps
  | ComplaintBox (BoxError _ _) => false
  | ComplaintBox _ => true
  end.
