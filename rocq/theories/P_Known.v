(** C114: what is known of each header. *)
From Coq Require Import String List Bool.
From Verif Require Import Base Text Structure Syntax Known Header HeaderProofs P_Header Rules.
Import ListNotations.
Open Scope list_scope.
Unset Strict Implicit.
Local Open Scope string_scope.
Local Open Scope list_scope.

(** ** Specification *)

(** Headers that must not be named in Connection (1034). *)
Definition names_bad_for_connection : list string :=
  ["Access-Control-Allow-Credentials"; "Access-Control-Allow-Headers"; "Access-Control-Allow-Methods";
   "Access-Control-Allow-Origin"; "Access-Control-Expose-Headers"; "Access-Control-Max-Age";
   "Access-Control-Request-Headers"; "Access-Control-Request-Method"; "Age"; "Authorization"; "Cache-Control";
   "Content-Encoding"; "Content-Language"; "Content-Range"; "Cross-Origin-Resource-Policy"; "ETag"; "Expires";
   "Forwarded"; "Last-Modified"; "Origin"; "Vary"; "Via"; "WWW-Authenticate"; "Warning"; "X-Content-Type-Options"].
(** Headers that must not be sent in a trailer (1026). *)
Definition names_bad_for_trailer : list string :=
  ["Access-Control-Allow-Credentials"; "Access-Control-Allow-Headers"; "Access-Control-Allow-Methods";
   "Access-Control-Allow-Origin"; "Access-Control-Expose-Headers"; "Access-Control-Max-Age";
   "Access-Control-Request-Headers"; "Access-Control-Request-Method"; "Age"; "Alt-Used"; "Authorization";
   "Cache-Control"; "Content-Encoding"; "Content-Length"; "Content-Range"; "Content-Type"; "Date"; "Expect";
   "Expires"; "Host"; "If"; "If-Match"; "If-Modified-Since"; "If-None-Match"; "If-Range"; "If-Schedule-Tag-Match";
   "If-Unmodified-Since"; "Location"; "Max-Forwards"; "Origin"; "Pragma"; "Proxy-Authorization"; "Range";
   "Retry-After"; "TE"; "Trailer"; "Transfer-Encoding"; "Vary"; "Warning"; "X-Content-Type-Options"].
(** Headers where a comma inside quotes may be misread (1299). *)
Definition names_quoted_comma_bad : list string :=
  ["Accept"; "Accept-Patch"; "Accept-Post"; "Forwarded"; "Link"; "Prefer"; "Preference-Applied"; "TE";
   "Transfer-Encoding"; "Via"; "Warning"].
(** Headers where a semicolon inside quotes may be misread (1300). *)
Definition names_quoted_semicolon_bad : list string :=
  ["Accept"; "Accept-Patch"; "Accept-Post"; "Content-Type"; "Forwarded"; "Link"; "Prefer";
   "Strict-Transport-Security"; "TE"; "Transfer-Encoding"].
(** Preconditions. *)
Definition names_precondition : list string :=
  ["If"; "If-Match"; "If-Modified-Since"; "If-None-Match"; "If-Schedule-Tag-Match"; "If-Unmodified-Since";
   "Overwrite"].
(** Headers for content negotiation. *)
Definition names_proactive_conneg : list string :=
  ["Accept"; "Accept-Charset"; "Accept-Encoding"; "Accept-Language"].
(** Headers that describe a representation. *)
Definition names_representation_metadata : list string :=
  ["Content-Disposition"; "Content-Encoding"; "Content-Language"; "Content-Location"; "Content-Type"; "ETag";
   "Last-Modified"].
(** Headers that are not for requests (1063), or for responses (1064). *)
Definition names_no_request : list string :=
  ["Accept-Patch"; "Accept-Post"; "Accept-Ranges"; "Access-Control-Allow-Credentials"; "Access-Control-Allow-Headers";
   "Access-Control-Allow-Methods"; "Access-Control-Allow-Origin"; "Access-Control-Expose-Headers";
   "Access-Control-Max-Age"; "Age"; "Allow"; "Alt-Svc"; "Content-Disposition"; "Content-Range";
   "Cross-Origin-Resource-Policy"; "ETag"; "Expires"; "Last-Modified"; "Location"; "Preference-Applied";
   "Proxy-Authenticate"; "Retry-After"; "Server"; "Strict-Transport-Security"; "Vary"; "WWW-Authenticate";
   "X-Content-Type-Options"].
Definition names_no_response : list string :=
  ["Accept"; "Accept-Charset"; "Accept-Language"; "Access-Control-Request-Headers"; "Access-Control-Request-Method";
   "Alt-Used"; "Authorization"; "Expect"; "Forwarded"; "From"; "HTTP2-Settings"; "Host"; "If-Match";
   "If-Modified-Since"; "If-None-Match"; "If-Range"; "If-Unmodified-Since"; "Max-Forwards"; "Origin"; "Prefer";
   "Proxy-Authorization"; "Range"; "Referer"; "TE"; "User-Agent"].
(** Deprecated headers (1197). *)
Definition names_deprecated : list string :=
  ["Access-Control"; "Content-Base"; "Cookie2"; "Method-Check"; "Method-Check-Expires"; "Referer-Root"; "Set-Cookie2"].
(** Headers that occur once, headers that are lists, and headers with arguments. *)
Definition names_single : list string :=
  ["Access-Control-Allow-Credentials"; "Access-Control-Allow-Origin"; "Access-Control-Max-Age";
   "Access-Control-Request-Method"; "Age"; "Alt-Used"; "Authorization"; "Content-Disposition"; "Content-Length";
   "Content-Location"; "Content-Range"; "Content-Type"; "Cross-Origin-Resource-Policy"; "Date"; "ETag"; "Expect";
   "Expires"; "From"; "HTTP2-Settings"; "Host"; "If-Modified-Since"; "If-Range"; "If-Unmodified-Since";
   "Last-Modified"; "Location"; "Max-Forwards"; "Origin"; "Proxy-Authorization"; "Range"; "Referer"; "Retry-After";
   "Server"; "User-Agent"; "X-Content-Type-Options"].
Definition names_multi : list string :=
  ["Accept"; "Accept-Charset"; "Accept-Encoding"; "Accept-Language"; "Accept-Patch"; "Accept-Post"; "Accept-Ranges";
   "Access-Control-Allow-Headers"; "Access-Control-Allow-Methods"; "Access-Control-Expose-Headers";
   "Access-Control-Request-Headers"; "Allow"; "Connection"; "Content-Encoding"; "Content-Language";
   "HTTPolice-Silence"; "If-Match"; "If-None-Match"; "Link"; "Pragma"; "Proxy-Authenticate"; "TE"; "Trailer";
   "Transfer-Encoding"; "Upgrade"; "Vary"; "Via"; "WWW-Authenticate"; "Warning"].
Definition names_special : list string :=
  ["Alt-Svc"; "Cache-Control"; "Forwarded"; "Prefer"; "Preference-Applied"; "Strict-Transport-Security"].

(** ** Proofs *)

Lemma names_marked (f : header_info -> bool) (B : header_info -> Prop) l name : (forall i, f i = true <-> B i) -> map hk_key (filter f header_table) = map s l ->
  ((exists i, known_as i name /\ B i) <-> is_header name l).
Proof.
  intros F E. unfold known_as, is_header. split.
  - intros (i & (I & K) & X). apply F in X. assert (J : In (hk_key i) (map s l)) by (rewrite <- E; apply in_map, filter_In; auto). apply in_map_iff in J. destruct J as (m & M & J). exists m. split; [exact J|].
    rewrite M. apply same_name_lower in K. apply same_name_lower. now symmetry.
  - intros (m & M & R). assert (J : In (s m) (map hk_key (filter f header_table))) by (rewrite E; now apply in_map). apply in_map_iff in J. destruct J as (i & K & J). apply filter_In in J. destruct J as (J & X).
    exists i. split; [split; [exact J|]|now apply F]. rewrite K. apply same_name_lower in R. apply same_name_lower. now symmetry.
Qed.
(** The properties, decided; only for the proofs. *)
Lemma is_true (f : header_info -> bool) i : f i = true <-> f i = true. Proof. reflexivity. Qed.
Definition says_false (o : option bool) : bool := match o with Some false => true | _ => false end.
Lemma is_false (f : header_info -> option bool) i : says_false (f i) = true <-> f i = Some false.
Proof. destruct (f i) as [[|]|]; cbn; split; congruence. Qed.
Definition has_rule (r : header_rule) (i : header_info) : bool := match hk_rule i, r with Some RSingle, RSingle | Some RMulti, RMulti | Some RSpecial, RSpecial => true | _, _ => false end.
Lemma is_rule r i : has_rule r i = true <-> hk_rule i = Some r.
Proof. unfold has_rule. destruct (hk_rule i) as [[| |]|], r; split; congruence. Qed.

(** C114.  Whatever its case, a name has each of these properties exactly if it is one of the names listed. *)
Theorem C114_headers : forall name,
  (marked hk_bad_for_connection name <-> is_header name names_bad_for_connection) /\
  (forbidden_in_trailer name <-> is_header name names_bad_for_trailer) /\
  (marked hk_quoted_comma_bad name <-> is_header name names_quoted_comma_bad) /\
  (marked hk_quoted_semicolon_bad name <-> is_header name names_quoted_semicolon_bad) /\
  (marked hk_precondition name <-> is_header name names_precondition) /\
  (marked hk_proactive_conneg name <-> is_header name names_proactive_conneg) /\
  (marked hk_representation_metadata name <-> is_header name names_representation_metadata) /\
  (excluded hk_for_request name <-> is_header name names_no_request) /\
  (excluded hk_for_response name <-> is_header name names_no_response) /\
  (marked hk_deprecated name <-> is_header name names_deprecated) /\
  ((exists i, known_as i name /\ hk_rule i = Some RSingle) <-> is_header name names_single) /\
  ((exists i, known_as i name /\ hk_rule i = Some RMulti) <-> is_header name names_multi) /\
  ((exists i, known_as i name /\ hk_rule i = Some RSpecial) <-> is_header name names_special).
Proof.
  intro name. unfold marked, excluded, forbidden_in_trailer.
  split; [apply (@names_marked hk_bad_for_connection _ _ name (is_true hk_bad_for_connection)); vm_compute; reflexivity|].
  split; [apply (@names_marked hk_bad_for_trailer _ _ name (is_true hk_bad_for_trailer)); vm_compute; reflexivity|].
  split; [apply (@names_marked hk_quoted_comma_bad _ _ name (is_true hk_quoted_comma_bad)); vm_compute; reflexivity|].
  split; [apply (@names_marked hk_quoted_semicolon_bad _ _ name (is_true hk_quoted_semicolon_bad)); vm_compute; reflexivity|].
  split; [apply (@names_marked hk_precondition _ _ name (is_true hk_precondition)); vm_compute; reflexivity|].
  split; [apply (@names_marked hk_proactive_conneg _ _ name (is_true hk_proactive_conneg)); vm_compute; reflexivity|].
  split; [apply (@names_marked hk_representation_metadata _ _ name (is_true hk_representation_metadata)); vm_compute; reflexivity|].
  split; [apply (@names_marked (fun i => says_false (hk_for_request i)) _ _ name (is_false hk_for_request)); vm_compute; reflexivity|].
  split; [apply (@names_marked (fun i => says_false (hk_for_response i)) _ _ name (is_false hk_for_response)); vm_compute; reflexivity|].
  split; [apply (@names_marked hk_deprecated _ _ name (is_true hk_deprecated)); vm_compute; reflexivity|].
  split; [apply (@names_marked (has_rule RSingle) _ _ name (is_rule RSingle)); vm_compute; reflexivity|].
  split; [apply (@names_marked (has_rule RMulti) _ _ name (is_rule RMulti)); vm_compute; reflexivity|].
  apply (@names_marked (has_rule RSpecial) _ _ name (is_rule RSpecial)); vm_compute; reflexivity.
Qed.
Print Assumptions C114_headers.
(** For example, of names in other cases, and of a name that is not known. *)
Example C114_example : forbidden_in_trailer (s "content-LENGTH") /\ ~ forbidden_in_trailer (s "ETag") /\ ~ marked hk_precondition (s "If-None") /\ excluded hk_for_response (s "hOST").
Proof.
  assert (H : forall name l, existsb (fun k => str_eqb (lower name) (lower (s k))) l = true <-> is_header name l).
  { intros name l. rewrite existsb_exists. unfold is_header. split; intros (k & K & E); exists k; (split; [exact K|]); [apply same_name_lower; now apply str_eqb_eq|apply str_eqb_eq; now apply same_name_lower]. }
  split; [|split; [|split]].
  - apply (C114_headers (s "content-LENGTH")), H. vm_compute. reflexivity.
  - intro X. apply (C114_headers (s "ETag")), H in X. vm_compute in X. discriminate X.
  - intro X. apply (C114_headers (s "If-None")), H in X. vm_compute in X. discriminate X.
  - apply (C114_headers (s "hOST")), H. vm_compute. reflexivity.
Qed.
