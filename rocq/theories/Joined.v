(** The framing and the checks put together: the messages that the framing
    makes (Framing.v) are those that are then checked (ChecksBase.v). *)
From Coq Require Import String.
From Verif Require Import Base Earley Grammar Syntax Actions Text Structure Known Header Values ChecksBase ChecksResponse.
From Verif Require Stream Framing.
Open Scope nat_scope.
Open Scope list_scope.
Unset Strict Implicit.

(** What [codings.pop() == tc.chunked] and the like look at in an element of the
    value of Transfer-Encoding: the name of a [Parametrized]
    (httpolice/structure.py:62-65), nothing in [Unavailable].  (What else an
    element might be does not arise: see P_Joined.v.) *)
Definition coding_name (v : val) : option str :=
  match v with
  | VObj _ [item; _] => Some (text_of item)
  | _ => None
  end.
(** What the framing calls (httpolice/framing1.py:145-158, 223-224, 270-276), in
    terms of what the checks call: [parse()] for Transfer-Encoding, and
    [decode_gzip] and [decode_deflate]. *)
Definition framing_env (E : env) : Framing.env := Framing.mkEnv
  (fun w => match e_read E Transfer_Encoding w with
            | Some (VList l, _) => Some (map coding_name l)
            | Some (v, _) => Some [coding_name v]
            | None => None
            end)
  (e_gzip E) (e_deflate E).

(** [HeaderEntry]; [Message.body] *)
Definition seen_entry (e : Framing.entry) : entry := Entry (fst e) (snd e).
Definition seen_body (b : Framing.body) : val :=
  match b with
  | Framing.Body x => VBytes x
  | Framing.Unavail None => VUnavailable VNone
  | Framing.Unavail (Some x) => VUnavailable (VBytes x)
  end.
(** [Message.__init__] (httpolice/message.py:44-56), and the trailer and the
    body that are set later (httpolice/framing1.py:334-337 and elsewhere). *)
Definition seen_message (version : str) (m : Framing.message) : msg :=
  Message (Some version) (Entries (map seen_entry (Framing.entries m)) (map seen_entry (Framing.trailer m)))
    (seen_body (Framing.mbody m)) None None.
(** [Request(scheme, method, target, version, ...)] (httpolice/framing1.py:113-114). *)
Definition seen_request (scheme : option str) (q : Framing.request) : request :=
  Request (seen_message (Framing.rq_version q) (Framing.rq_msg q)) scheme (Framing.rq_method q) (Framing.rq_target q).
(** [Response(version, status, reason, ...)] (httpolice/framing1.py:194-197). *)
Definition seen_response (p : Framing.response) : response :=
  Response (seen_message (Framing.rs_version p) (Framing.rs_msg p)) (Z.of_N (Framing.rs_status p)) (Some (Framing.rs_reason p)).
(** [Exchange(req, resps)]; a complaint box is an exchange without messages
    (httpolice/exchange.py:46-54). *)
Definition seen_exchange (scheme : option str) (x : Framing.exchange) : exchange :=
  match x with
  | Framing.Exchange q ps => Exchange (option_map (seen_request scheme) q) (map seen_response ps)
  | Framing.ComplaintBox _ => Exchange None []
  end.

(** The exchanges that come out of two streams of bytes, in the form in which
    they are checked.  (httpolice/framing1.py:34-90; then, for the command line,
    httpolice/cli.py:41-46 checks each of them.) *)
Definition exchanges_from (E : env) (scheme : option str) (inbound outbound : option str) : list exchange :=
  map (seen_exchange scheme)
    (Framing.yielded (Framing.parse_streams (framing_env E) (option_map Stream.new_stream inbound) (option_map Stream.new_stream outbound))).
