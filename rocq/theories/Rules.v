(** When a notice is due: a specification of the checks of messages, requests,
    responses and exchanges that does not use their definitions.

    A rule says for one notice in which circumstances, and with which context, it
    is reported.  Each group of rules is about one check; the comments give the
    lines of /repo. *)
From Coq Require Import ZifyBool ZifyNat ZifyN String.
From Verif Require Import Base Earley Grammar Syntax Actions Nested P_Types Text Structure Known Tables Header HeaderProofs P_Header P_Views Values Notices
  ChecksBase HeaderValue ChecksMessage ChecksRequest ChecksResponse P_Bodies.
Open Scope nat_scope.
Open Scope list_scope.
Unset Strict Implicit.
Local Open Scope string_scope.
Local Open Scope list_scope.

(** ** Rules *)

Record rule := Rule { r_who : who; r_id : N; r_due : list (str * carg) -> Prop }.
(** A notice that has nothing in its context. *)
Definition plain (w : who) (id : N) (P : Prop) : rule := Rule w id (fun ctx => ctx = [] /\ P).
(** One with this context. *)
Definition about (w : who) (id : N) (c : list (str * carg)) (P : Prop) : rule := Rule w id (fun ctx => ctx = c /\ P).
(** The event is one that a rule requires. *)
Definition due_by (r : rule) (e : event) : Prop := exists ctx, e = Said (r_who r) (r_id r) ctx /\ r_due r ctx.
Fixpoint due (t : list rule) (e : event) : Prop := match t with [] => False | r :: t' => due_by r e \/ due t' e end.

(** ** What rules are about *)

Section Vocabulary.
Variable E : env.

(** *** Headers *)

(** A value that is there and was read. *)
Definition readable (v : val) : Prop := v <> VNone /\ forall x, v <> VUnavailable x.
(** The message has the header. *)
Definition has (m : msg) (k : string) : Prop := exists p e, usable (m_entries m) (s k) p e.
Definition lacks (m : msg) (k : string) : Prop := ~ has m k.
Definition okay (m : msg) (k : string) : Prop := exists v, header_value E m k v /\ readable v.
(** Its value is [c], or can be read and is not [c]; [veq] is Python's [==]. *)
Definition equals (m : msg) (k : string) (c : val) : Prop := exists v, header_value E m k v /\ readable v /\ veq v c = true.
Definition differs (m : msg) (k : string) (c : val) : Prop := exists v, header_value E m k v /\ readable v /\ veq v c = false.
(** Both values can be read and are in this order. *)
Definition ordered (m : msg) (k : string) (test : Datatypes.comparison -> Prop) (c : val) : Prop :=
  exists v o, header_value E m k v /\ readable v /\ readable c /\ order v c = Some o /\ test o.
Definition above (m : msg) (k : string) (c : val) : Prop := ordered m k (fun o => o = Gt) c.
Definition below (m : msg) (k : string) (c : val) : Prop := ordered m k (fun o => o = Lt) c.
Definition not_below (m : msg) (k : string) (c : val) : Prop := ordered m k (fun o => o <> Lt) c.
Definition holds (m : msg) (k : string) : Prop := exists v, header_value E m k v /\ truthy_val v = true.

(** The text of a string. *)
Definition text_is (v : val) (x : str) : Prop := str_like v = Some (Plain x) \/ str_like v = Some (CI x).
(** The elements of a value, without those that could not be read.  Those of a
    string are its characters. *)
Inductive elements : val -> list val -> Prop :=
| of_list l : elements (VList l) (filter okay_value l)
| of_text v x : text_is v x -> elements v (map (fun c => VStr [c]) x).
Definition listed (m : msg) (k : string) (l : list val) : Prop := exists v, header_value E m k v /\ elements v l.
Definition item (m : msg) (k : string) (x : val) : Prop := exists l, listed m k l /\ In x l.
Definition mentions (m : msg) (k : string) (c : val) : Prop := exists x, item m k x /\ veq x c = true.

(** The argument of the first directive of that name; [True] if it has none;
    [None] if there is no such directive. *)
Inductive looked_up (key : string) : list val -> val -> Prop :=
| not_found : looked_up key [] VNone
| found d l n r : unpack2 d = Some (n, r) -> P_Header.same_name (text_of n) (s key) -> looked_up key (d :: l) (answer r)
| look_further d l n r v : unpack2 d = Some (n, r) -> ~ P_Header.same_name (text_of n) (s key) -> looked_up key l v -> looked_up key (d :: l) v.
Definition directive (m : msg) (k key : string) (v : val) : Prop := exists l, listed m k l /\ looked_up key l v.
(** For Cache-Control. *)
Definition directs (m : msg) (key : string) : Prop := exists v, directive m "Cache-Control" key v /\ truthy_val v = true.
Definition without (m : msg) (key : string) : Prop := directive m "Cache-Control" key VNone.
Definition bare (m : msg) (key : string) : Prop :=
  exists v, directive m "Cache-Control" key v /\ (veq v (VBool true) = true \/ veq v (VList []) = true).
(** For Prefer: the preferences without their parameters. *)
Definition preferences (m : msg) (l : list val) : Prop :=
  exists ds, listed m "Prefer" ds /\ Forall2 (fun d p => exists r, unpack2 d = Some (p, r)) ds l.
Definition prefers (m : msg) (key : string) (v : val) : Prop := exists l, preferences m l /\ looked_up key l v.

(** Components of named tuples; parameters. *)
Definition part (x : string) (v u : val) : Prop := attr (s x) v = Some u.
Definition has_part (m : msg) (k x : string) (u : val) : Prop := exists v, header_value E m k v /\ part x v u.
Definition params (v : val) (d : list (val * val)) : Prop := pairs_of v = Some d.

(** The parts of the header name list that have a property. *)
Definition named (m : msg) (name : str) : Prop := In name (names (m_entries m)).
Definition marked (f : header_info -> bool) (name : str) : Prop := exists i, known_as i name /\ f i = true.
Definition excluded (f : header_info -> option bool) (name : str) : Prop := exists i, known_as i name /\ f i = Some false.
Definition is_header (name : str) (l : list string) : Prop := exists k, In k l /\ P_Header.same_name name (s k).
(** The elements with a property, in order. *)
Inductive picked {A} (P : A -> Prop) : list A -> list A -> Prop :=
| pick_nil : picked P [] []
| pick_this x l r : P x -> picked P l r -> picked P (x :: l) (x :: r)
| pick_not x l r : ~ P x -> picked P l r -> picked P (x :: l) r.

(** *** Other knowledge *)

Definition is_one (x : str) (l : list string) : Prop := exists k, In k l /\ x = s k.
Definition version (m : msg) (l : list string) : Prop := exists v, m_version m = Some v /\ is_one v l.
Definition method_says (f : method_info -> option bool) (x : str) (b : bool) : Prop := exists i, In i method_table /\ mk_key i = x /\ f i = Some b.
Definition media_says (f : media_info -> Prop) (x : str) : Prop := exists i, In i media_table /\ P_Header.same_name (tk_key i) x /\ f i.
Definition directive_says (f : arg_info -> option bool) (x : str) (b : bool) : Prop :=
  exists i, In i cache_directive_table /\ P_Header.same_name (ak_key i) x /\ f i = Some b.
Definition status_says (st : Z) (c : cacheable) : Prop := In (st, c) status_table.
Definition insecure (scheme : option str) : Prop := scheme = Some (s "http").
Definition secure (scheme : option str) : Prop := scheme = Some (s "https").
(** There is a body, or it may be there and is not known. *)
Definition body_there (m : msg) : Prop := truthy_val (m_body m) = true.
Definition body_empty (m : msg) : Prop := m_body m = VBytes [].

(** Text that a symbol matches. *)
Definition parses_as (x : symbol) (t : str) (v : val) : Prop := (forall c, In c t -> (c < 256)%N) /\ exists cs, e_read E x t = Some (v, cs).
Definition not_parsed (x : symbol) (t : str) : Prop := forall v, ~ parses_as x t v.

(** *** The content type *)

Definition media_type (m : msg) (t : str) : Prop := okay m "Content-Type" /\ exists i, has_part m "Content-Type" "item" i /\ text_of i = t.
Definition type_params (m : msg) (d : list (val * val)) : Prop := exists p, has_part m "Content-Type" "param" p /\ params p d.
Definition ends (x suffix : str) : Prop := exists a b, x = a ++ b /\ P_Header.same_name b suffix.
Definition starts (x prefix : str) : Prop := exists a b, x = a ++ b /\ P_Header.same_name a prefix.
Definition json_type (t : str) : Prop := media_says (fun i => tk_is_json i = true) t \/ ends t (s "+json").
Definition xml_type (t : str) : Prop := media_says (fun i => tk_is_xml i = true) t \/ ends t (s "+xml").
Definition multipart_type (t : str) : Prop := starts t (s "multipart/").
Definition patch_no (t : str) : Prop := media_says (fun i => tk_patch i = Some false) t.

(** *** The body *)

(** The body without its content codings ([decodes] is in P_Bodies.v), and the
    notices about them. *)
Definition decoded (m : msg) (v : val) (ns : list (N * coding)) : Prop :=
  (m_decoded m = Some v /\ ns = []) \/
  (m_decoded m = None /\ exists cs, header_value E m "Content-Encoding" (VList (map coding_value cs)) /\
    ((exists body, m_body m = VBytes body /\ decodes E (rev cs) body v ns) \/ ((forall body, m_body m <> VBytes body) /\ v = m_body m /\ ns = []))).
Definition decoded_to (m : msg) (v : val) : Prop := exists ns, decoded m v ns.
(** The charset that it says, or UTF-8. *)
Definition charset_name (m : msg) (t : str) : Prop :=
  (okay m "Content-Type" /\ exists d c, type_params m d /\ Structure.get veq d (VStr (s "charset")) (VStr (s "utf-8")) = Some c /\ text_is c t) \/
  (~ okay m "Content-Type" /\ t = s "utf-8").
(** The charset that the body is decoded from, if there is one. *)
Definition charset (m : msg) (o : option str) : Prop :=
  exists t, charset_name m t /\
    ((e_codec E t = Refused /\ o = None) \/
     (exists cs b, e_codec E t = Fine cs /\ decoded_to m b /\
       ((exists x y, b = VBytes x /\ e_decode E cs x = Fine y /\ o = Some cs) \/
        (exists x, b = VBytes x /\ e_decode E cs x = Refused /\ o = None) \/
        (~ readable b /\ o = Some cs)))).
Definition unicode (m : msg) (v : val) : Prop :=
  m_unicode m = Some v \/
  (m_unicode m = None /\ exists b, decoded_to m b /\
    ((exists x, b = VBytes x /\ charset m None /\ v = VUnavailable b) \/
     (exists x c t, b = VBytes x /\ charset m (Some c) /\ e_decode E c x = Fine t /\ v = VStr t) \/
     (~ readable b /\ v = b))).
(** The body is not a part of something, or missing for a good reason. *)
Definition full (j : subject) : Prop :=
  match j_status j with
  | None => True
  | Some st =>
      st <> 304%Z /\ st <> 103%Z /\ ~ (st = 206%Z /\ differs (j_msg j) "Content-Type" (const "MediaType" "multipart/byteranges")) /\
      match j_request j with Some q => q_method q <> s "HEAD" | None => body_there (j_msg j) end
  end.
Definition json_text (j : subject) (t : str) : Prop := (exists x, media_type (j_msg j) x /\ json_type x) /\ full j /\ unicode (j_msg j) (VStr t).
Definition xml_text (j : subject) (t : str) : Prop := (exists x, media_type (j_msg j) x /\ xml_type x) /\ full j /\ decoded_to (j_msg j) (VBytes t).
(** What a multipart body looks like to the email library: together with the
    last usable Content-Type. *)
Definition multipart (j : subject) (r : email) : Prop :=
  (exists x, media_type (j_msg j) x /\ multipart_type x) /\ full j /\
  exists t us p e, decoded_to (j_msg j) (VBytes t) /\ all_usable (m_entries (j_msg j)) (s "Content-Type") (us ++ [(p, e)]) /\
    e_email E (s "Content-Type: " ++ e_value e ++ [13; 10; 13; 10]%N ++ t) = Got r.
Definition form_text (j : subject) (t : str) : Prop :=
  equals (j_msg j) "Content-Type" (const "MediaType" "application/x-www-form-urlencoded") /\ full j /\ decoded_to (j_msg j) (VBytes t).
(** Characters that may be in such a form: letters, digits, [%&*+-._] and [:;<=>?]. *)
Definition form_char (c : N) : Prop :=
  (In c [37; 38; 42; 43; 45; 46; 95] \/ (48 <= c <= 63) \/ (65 <= c <= 90) \/ (97 <= c <= 122))%N.
Definition form_keys (j : subject) (keys : list str) : Prop :=
  exists t, form_text j t /\ (forall c, In c t -> form_char c) /\ e_qs E t = Got keys.
Definition access_token : str := s "access_token".

(** Instances of a class; strings (of which there are several classes). *)
Definition an (c : string) (v : val) : Prop := exists l, v = VObj (s c) l.
Definition stringy (v : val) : Prop := exists x, text_is v x.
(** The elements of the value of a header that has just one. *)
Definition members (m : msg) (k : string) (l : list val) : Prop :=
  exists v, header_value E m k v /\ (v = VList l \/ exists x, text_is v x /\ l = map (fun c => VStr [c]) x).
Definition known_method (x : str) : Prop := exists i, In i method_table /\ mk_key i = x.
Definition lowercase (c : N) : Prop := (97 <= c <= 122)%N.
Definition capitals (x y : str) : Prop := Forall2 (fun c d => (lowercase c /\ (d + 32)%N = c) \/ (~ lowercase c /\ d = c)) x y.

End Vocabulary.

(** ** Any message (httpolice/message.py) *)

Section Message.
Variable E : env.
Variable j : subject.
(** The scheme of the request. *)
Variable scheme : option str.
Notation m := (j_msg j).
Notation w := (j_who j).
Notation header name := (s "header", CHeader w name).

Definition early_hints (st : option Z) : Prop := st = Some 103%Z.
(** A proxy says that it changed the message (httpolice/message.py:243-248,
    httpolice/response.py:173-180). *)
Definition by_status : Prop := j_status j = Some 203%Z.
Definition by_warning : Prop := j_status j <> Some 103%Z /\ j_status j <> Some 203%Z /\ mentions E m "Warning" (warn "214").
Definition transformed : Prop := by_status \/ by_warning.

(** httpolice/message.py:261-274 *)
Definition rules_each_header : list rule := [
  Rule w 1293 (fun ctx => exists name, named m name /\ not_parsed E field_name name /\
    ctx = [(s "error", CError); header name; (s "place", CVal (VStr (s "field name")))]);
  Rule w 1197 (fun ctx => exists name, named m name /\ marked hk_deprecated name /\ ctx = [header name]);
  Rule w 1277 (fun ctx => exists l, l <> [] /\ ctx = [(s "headers", CHeaders w l)] /\
    picked (fun name => starts name (s "X-") /\ forall i, ~ known_as i name) (names (m_entries m)) l)].
(** httpolice/message.py:71-93: the codings *)
Definition rules_codings : list rule := [
  Rule w 1036 (fun ctx => exists v c, decoded E m v [(1036%N, c)] /\ ctx = [(s "coding", CVal (coding_value c))]);
  Rule w 1037 (fun ctx => exists v c, decoded E m v [(1037%N, c)] /\ ctx = [(s "coding", CVal (coding_value c)); (s "error", CError)])].
(** httpolice/message.py:128-142 *)
Definition rules_json : list rule := [
  about w 1038 [(s "error", CError)] (exists t, json_text E j t /\ e_json E t = JsonError);
  plain w 1281 (exists t c, json_text E j t /\ (e_json E t = JsonNull \/ exists d, e_json E t = JsonData d) /\
    charset E m (Some c) /\ c <> s "ascii" /\ c <> s "utf-8")].
(** httpolice/message.py:144-161 *)
Definition rules_xml : list rule := [
  plain w 1275 (exists t, xml_text E j t /\ e_xml E t = XmlEntities);
  about w 1039 [(s "error", CError)] (exists t, xml_text E j t /\ e_xml E t = XmlError)].
(** httpolice/message.py:163-183 *)
Definition rules_multipart : list rule := [
  plain w 1139 (exists r, multipart E j r /\ In NoBoundary (defects r));
  plain w 1140 (exists r, multipart E j r /\ In NoStart (defects r))].
(** httpolice/message.py:185-196: the first bad character *)
Definition rules_form : list rule := [
  Rule w 1040 (fun ctx => exists a c b, form_text E j (a ++ c :: b) /\ (forall x, In x a -> form_char x) /\ ~ form_char c /\
    ctx = [(s "char", CVal (VStr (format_chars [c])))])].
(** httpolice/message.py:276-282 *)
Definition rules_payload : list rule := rules_codings ++ rules_json ++ rules_xml ++ rules_multipart ++ rules_form.
(** httpolice/message.py:284-287 *)
Definition rules_trailer_chunked : list rule := [
  plain w 1054 (version m ["HTTP/1.1"] /\ has m "Trailer" /\ ~ mentions E m "Transfer-Encoding" (const "TransferCoding" "chunked"))].
(** httpolice/message.py:289-291 *)
Definition rules_trailers : list rule := [
  Rule w 1030 (fun ctx => exists i e, nth_error (trailer_entries (m_entries m)) i = Some e /\
    ~ mentions E m "Trailer" (VObj (s "FieldName") [VStr (e_name e)]) /\ ctx = [(s "header", CEntry w (true, i))])].
(** httpolice/message.py:293-295 *)
Definition rules_te_and_cl : list rule := [plain w 1020 (has m "Transfer-Encoding" /\ has m "Content-Length")].
(** httpolice/message.py:297-299 *)
Definition rules_connection : list rule := [
  Rule w 1034 (fun ctx => exists o, item E m "Connection" o /\ marked hk_bad_for_connection (text_of o) /\ ctx = [header (text_of o)])].
(** httpolice/message.py:301-305 *)
Definition rules_media_type : list rule := [
  plain w 1035 (exists t, media_type E m t /\ media_says (fun i => tk_deprecated i = true) t);
  Rule w 1042 (fun ctx => exists d k, okay E m "Content-Type" /\ type_params E m d /\ In k (dup_keys veq d) /\ ctx = [(s "param", CVal k)])].
(** httpolice/message.py:307-309 *)
Definition rules_json_charset : list rule := [
  about w 1280 [header (s "Content-Type")] (equals E m "Content-Type" (const "MediaType" "application/json") /\
    exists d, type_params E m d /\ contains veq d (VStr (s "charset")) = true)].
(** httpolice/message.py:311-312 *)
Definition rules_future_date : list rule := [
  plain w 1109 (above E m "Date" (instant (e_now E w (s "check_message") + 10 * micro)))].
(** httpolice/message.py:314-318.  Codes are in thousandths. *)
Definition code_in (lo hi : Z) (v : val) : Prop := exists n, number_like v = Some n /\ (lo * 1000 <= n <= hi * 1000)%Z.
Definition rules_warnings : list rule := [
  Rule w 1163 (fun ctx => exists x code, item E m "Warning" x /\ part "code" x code /\ ~ code_in 100 299 code /\ ctx = [(s "code", CVal code)]);
  Rule w 1164 (fun ctx => exists x code date, item E m "Warning" x /\ part "code" x code /\ part "date" x date /\ readable date /\
    differs E m "Date" date /\ ctx = [(s "code", CVal code)])].
(** httpolice/message.py:320-322 *)
Definition rules_pragma : list rule := [
  Rule w 1160 (fun ctx => exists x i, item E m "Pragma" x /\ veq x (VStr (s "no-cache")) = false /\ part "item" x i /\ ctx = [(s "pragma", CVal i)])].
(** httpolice/message.py:324-328 *)
Definition rules_upgrade_tokens : list rule := [
  plain w 1228 (exists x i, item E m "Upgrade" x /\ part "item" x i /\ veq i (VStr (s "h2")) = true);
  plain w 1233 (exists x i, item E m "Upgrade" x /\ part "item" x i /\ veq i (const "UpgradeToken" "h2c") = true /\ secure scheme)].
(** httpolice/message.py:338-339 *)
Definition rules_upgrade_option : list rule := [
  plain w 1050 (has m "Upgrade" /\ ~ mentions E m "Connection" (VStr (s "upgrade")))].
(** httpolice/message.py:341-345 *)
Definition rules_by_proxy : list rule := [plain w 1190 by_status; plain w 1189 by_warning].
Definition rules_transformed : list rule := rules_by_proxy ++ [
  plain w 1191 (transformed /\ ~ mentions E m "Warning" (warn "214"));
  plain w 1192 (transformed /\ directs E m "no-transform")].
(** httpolice/message.py:347-352 *)
Definition rules_http2_headers : list rule := [
  Rule w 1244 (fun ctx => exists name, version m ["HTTP/2"] /\ named m name /\ is_header name ["Connection"; "Transfer-Encoding"; "Keep-Alive"] /\ ctx = [header name]);
  plain w 1245 (exists name, version m ["HTTP/2"] /\ named m name /\ is_header name ["Upgrade"])].

(** Early hints are exempt from the last three. *)
Definition message_rules (st : option Z) : list (list rule) :=
  [rules_each_header; rules_payload; rules_trailer_chunked; rules_trailers; rules_te_and_cl; rules_connection; rules_media_type;
   rules_json_charset; rules_future_date; rules_warnings; rules_pragma; rules_upgrade_tokens] ++
  (if match st with Some 103%Z => true | _ => false end then [] else [rules_upgrade_option; rules_transformed; rules_http2_headers]).
End Message.

(** ** Requests (httpolice/request.py) *)

Section Request.
Variable E : env.
Variable q : request.
Notation m := (q_msg q).
Notation header name := (s "header", CHeader Req name).
Definition method_is (l : list string) : Prop := is_one (q_method q) l.

(** The syntax of the target (httpolice/request.py:117-122); the form that it
    has. *)
Inductive target_syntax : symbol -> Prop :=
| to_connect : q_method q = s "CONNECT" -> target_syntax connect_target
| to_options : q_method q = s "OPTIONS" -> target_syntax options_target
| to_other : q_method q <> s "CONNECT" -> q_method q <> s "OPTIONS" -> target_syntax normal_target.
Definition formed (x : str) : Prop := exists y v r, target_syntax y /\ parses_as E y (q_target q) v /\ unpack2 v = Some (VStr x, r).
Definition form (x : string) : Prop := formed (s x).
(** The effective request URI (RFC 7230 section 5.5; httpolice/request.py:130-155). *)
Definition host (x : str) : Prop := exists v, header_value E m "Host" v /\ readable v /\ text_is v x.
Definition uri (u : str) : Prop :=
  (form "absolute-form" /\ u = q_target q) \/
  (exists scheme, q_scheme q = Some scheme /\ scheme <> [] /\
    ((form "authority-form" /\ u = scheme ++ s "://" ++ q_target q) \/
     (exists x, host x /\ ((form "asterisk-form" /\ u = scheme ++ s "://" ++ x) \/ (form "origin-form" /\ u = scheme ++ s "://" ++ x ++ q_target q))))).
Definition query_keys (keys : list str) : Prop := exists u r, uri u /\ e_url E u = Got r /\ e_qs E (snd (fst r)) = Got keys.
Definition token_in_uri : Prop := exists keys, query_keys keys /\ In access_token keys.
Definition token_in_body : Prop := exists keys, form_keys E (of_request q) keys /\ In access_token keys.
(** It is known that there is no body (httpolice/request.py:187-198). *)
Definition bodiless : Prop := ~ body_there m /\ version m ["HTTP/1.0"; "HTTP/1.1"] /\ lacks m "Content-Length" /\ lacks m "Transfer-Encoding".
(** The request is known to go to a proxy, or not to (httpolice/request.py:165-177). *)
Definition to_proxy : Prop := version m ["HTTP/1.0"; "HTTP/1.1"] /\ form "absolute-form".
Definition to_server : Prop := version m ["HTTP/1.0"; "HTTP/1.1"] /\ ~ form "absolute-form".
(** Credentials: a scheme, and what goes with it. *)
Definition credentials (k : string) (scheme c : val) : Prop := exists v, header_value E m k v /\ readable v /\ unpack2 v = Some (scheme, c).
Definition basic (k : string) (c : val) : Prop := exists scheme, credentials k scheme c /\ veq scheme (const "AuthScheme" "Basic") = true.
Definition bearer (k : string) (c : val) : Prop := exists scheme, credentials k scheme c /\ veq scheme (const "AuthScheme" "Basic") = false /\ veq scheme (const "AuthScheme" "Bearer") = true.
Definition other_scheme (k : string) (c : val) : Prop := exists scheme, credentials k scheme c /\ veq scheme (const "AuthScheme" "Basic") = false /\ veq scheme (const "AuthScheme" "Bearer") = false.
Definition auth_headers : list string := ["Authorization"; "Proxy-Authorization"].
Definition urlsafe_char (c : N) : Prop := ((65 <= c <= 90) \/ (97 <= c <= 122) \/ (48 <= c <= 57) \/ c = 45 \/ c = 95)%N.
(** The preference with its value is there. *)
Definition wanted (key x : string) : Prop := exists l v, preferences E m l /\ In v l /\ veq v (VTuple [const "Preference" key; VStr (s x)]) = true.
(** An element of Accept and the like, without parameters, and its weight
    (httpolice/request.py:434-440).  With Accept the weight is among the
    parameters that follow. *)
Inductive weighed : val -> val * val -> Prop :=
| weigh v item wt item' wt' : unpack2 v = Some (item, wt) -> item_of item item' -> weight_of wt wt' -> weighed v (item', wt')
with item_of : val -> val -> Prop :=
| with_params i ps : item_of (VObj (s "Parametrized") [i; ps]) i
| without_params_ i : (forall i' ps, i <> VObj (s "Parametrized") [i'; ps]) -> item_of i i
with weight_of : val -> val -> Prop :=
| weight_default : weight_of VNone (VFloat (s "1.0"))
| weight_in l d x : params (VObj (s "MultiDict") l) d -> Structure.get veq d (VStr (s "q")) (VFloat (s "1.0")) = Some x -> weight_of (VObj (s "MultiDict") l) x
| weight_itself x : x <> VNone -> ~ an "MultiDict" x -> weight_of x x.
(** A pattern that ends with a wildcard covers another element of the same
    weight, and is not covered by it (httpolice/request.py:441-451). *)
Definition suffixed (v : val) (x : str) : Prop :=
  (exists y, str_like v = Some (Plain (y ++ x))) \/ (exists y, str_like v = Some (CI y) /\ ends y x).
Definition covers (x y : val * val) : Prop :=
  (veq (fst x) (VStr (s "*")) = true \/ suffixed (fst x) (s "/*")) /\
  e_fnmatch E (text_of (fst y)) (text_of (fst x)) = true /\ e_fnmatch E (text_of (fst x)) (text_of (fst y)) = false /\ veq (snd x) (snd y) = true.
(** The first such pair. *)
Definition first_covered (l : list (val * val)) (x y : val) : Prop :=
  exists i k a b, i <> k /\ nth_error l i = Some a /\ nth_error l k = Some b /\ covers a b /\ x = fst a /\ y = fst b /\
  forall i' k' a' b', i' <> k' -> nth_error l i' = Some a' -> nth_error l k' = Some b' -> i' < i \/ (i' = i /\ k' < k) -> ~ covers a' b'.

(** httpolice/request.py:215-217 *)
Definition rules_request_line : list rule := [
  about Req 1292 [(s "error", CError); (s "place", CVal (VStr (s "request method")))] (not_parsed E Syntax.method (q_method q));
  about Req 1045 [(s "error", CError); (s "place", CVal (VStr (s "request target")))] (exists y, target_syntax y /\ not_parsed E y (q_target q))].
(** httpolice/request.py:219-220 *)
Definition rules_uppercase : list rule := [
  Rule Req 1295 (fun ctx => exists x, capitals (q_method q) x /\ x <> q_method q /\ known_method x /\ ctx = [(s "uppercase", CVal (VObj (s "Method") [VStr x]))])].
(** httpolice/request.py:222-223 *)
Definition rules_untyped_body : list rule := [plain Req 1041 (body_there m /\ lacks m "Content-Type")].
(** httpolice/request.py:225-228 *)
Definition rules_length_needed : list rule := [
  plain Req 1021 (version m ["HTTP/1.0"; "HTTP/1.1"] /\ method_says mk_defines_body (q_method q) true /\ lacks m "Content-Length" /\ lacks m "Transfer-Encoding")].
(** httpolice/request.py:230-232 *)
Definition rules_length_useless : list rule := [
  plain Req 1022 (method_says mk_defines_body (q_method q) false /\ body_empty m /\ has m "Content-Length")].
(** httpolice/request.py:234-240 *)
Definition rules_te_chunked : list rule := [plain Req 1028 (mentions E m "TE" (const "TransferCoding" "chunked"))].
Definition rules_te_http2 : list rule := [
  about Req 1244 [header (s "TE")] (version m ["HTTP/2"] /\ holds E m "TE" /\ differs E m "TE" (VList [VStr (s "trailers")]))].
Definition rules_te_connection : list rule := [
  plain Req 1029 (version m ["HTTP/1.1"] /\ holds E m "TE" /\ ~ mentions E m "Connection" (VStr (s "TE")))].
(** httpolice/request.py:242-245 *)
Definition rules_host_missing : list rule := [plain Req 1031 (version m ["HTTP/1.1"] /\ lacks m "Host")].
Definition rules_host_first : list rule := [
  plain Req 1032 (has m "Host" /\ exists e l, header_entries (m_entries m) = e :: l /\ ~ is_header (e_name e) ["Host"])].
(** httpolice/request.py:247-252 *)
Definition rules_request_headers : list rule := [
  Rule Req 1063 (fun ctx => exists name, named m name /\ excluded hk_for_request name /\ ctx = [header name]);
  Rule Req 1053 (fun ctx => exists name, named m name /\ ~ excluded hk_for_request name /\ marked hk_representation_metadata name /\ bodiless /\ ctx = [header name])].
(** httpolice/request.py:254-265 *)
Definition rules_unexpected_body : list rule := [
  plain Req 1056 (body_there m /\ method_is ["GET"]); plain Req 1057 (body_there m /\ method_is ["HEAD"]);
  plain Req 1059 (body_there m /\ method_is ["DELETE"]); plain Req 1061 (body_there m /\ method_is ["CONNECT"])].
Definition rules_options_body : list rule := [plain Req 1062 (method_is ["OPTIONS"] /\ body_there m /\ lacks m "Content-Type")].
(** httpolice/request.py:267-268 *)
Definition rules_expect : list rule := [plain Req 1066 (equals E m "Expect" (VStr (s "100-continue")) /\ bodiless)].
(** httpolice/request.py:270-271 *)
Definition rules_max_forwards : list rule := [plain Req 1067 (has m "Max-Forwards" /\ ~ method_is ["OPTIONS"; "TRACE"])].
(** httpolice/request.py:273-277 *)
Definition rules_referer : list rule := [
  plain Req 1068 (insecure (q_scheme q) /\ exists v r, header_value E m "Referer" v /\ readable v /\ e_url E (text_of v) = Got r /\ fst (fst r) = s "https")].
(** httpolice/request.py:279-285: every product is a library *)
Definition rules_user_agent : list rule := [
  plain Req 1070 (lacks m "User-Agent");
  Rule Req 1093 (fun ctx => exists l x xs, okay E m "User-Agent" /\ members E m "User-Agent" l /\ picked (an "Versioned") l (x :: xs) /\
    (forall y, In y (x :: xs) -> exists i, part "item" y i /\ In (text_of i) library_table) /\ ctx = [(s "library", CVal x)])].
(** httpolice/request.py:287-289 *)
Definition rules_accept_encoding : list rule := [
  Rule Req 1116 (fun ctx => exists x i p, item E m "Accept-Encoding" x /\ part "item" x i /\
    (veq (const "ContentCoding" "x-gzip") i = true \/ veq (const "ContentCoding" "x-compress") i = true) /\
    part "param" x p /\ p <> VNone /\ ctx = [(s "coding", CVal i)])].
(** httpolice/request.py:291-292 *)
Definition rules_if_match : list rule := [
  plain Req 1120 (differs E m "If-Match" (VStr (s "*")) /\ exists x weak, item E m "If-Match" x /\ part "weak" x weak /\ truthy_val weak = true)].
(** httpolice/request.py:294-306 *)
Definition rules_head_preconditions : list rule := [
  Rule Req 1131 (fun ctx => exists name, method_is ["HEAD"] /\ named m name /\ marked hk_precondition name /\ ctx = [header name])].
Definition rules_preconditions : list rule := [
  Rule Req 1130 (fun ctx => exists name, method_is ["CONNECT"; "OPTIONS"; "TRACE"] /\ named m name /\
    is_header name ["If-Modified-Since"; "If-Unmodified-Since"; "If-Match"; "If-None-Match"; "If-Range"] /\ ctx = [header name]);
  plain Req 1122 (~ method_is ["CONNECT"; "OPTIONS"; "TRACE"] /\ ~ method_is ["GET"; "HEAD"] /\ has m "If-Modified-Since")].
(** httpolice/request.py:308-315 *)
Definition rules_range : list rule := [plain Req 1132 (has m "Range" /\ ~ method_is ["GET"])].
Definition rules_if_range : list rule := [plain Req 1134 (has m "If-Range" /\ lacks m "Range")].
Definition rules_if_range_weak : list rule := [
  plain Req 1135 (exists v weak, header_value E m "If-Range" v /\ an "EntityTag" v /\ part "weak" v weak /\ truthy_val weak = true)].
(** httpolice/request.py:317-324 *)
Definition rules_cache_directives : list rule := [
  Rule Req 1152 (fun ctx => exists x i, item E m "Cache-Control" x /\ part "item" x i /\ directive_says ak_for_request (text_of i) false /\ ctx = [(s "directive", CVal i)]);
  Rule Req 1159 (fun ctx => exists x i p, item E m "Cache-Control" x /\ part "item" x i /\ veq x (const "CacheDirective" "no-cache") = true /\
    part "param" x p /\ p <> VNone /\ ctx = [(s "directive", CVal i)])].
Definition rules_no_cache_pragma : list rule := [plain Req 1161 (directs E m "no-cache" /\ ~ mentions E m "Pragma" (VStr (s "no-cache")))].
(** httpolice/request.py:326-328 *)
Definition rules_request_warnings : list rule := [
  Rule Req 1165 (fun ctx => exists x code, item E m "Warning" x /\ part "code" x code /\ code_in 100 199 code /\ ctx = [(s "code", CVal code)])].
(** httpolice/request.py:330-335 *)
Definition rules_uncacheable_method : list rule := [
  Rule Req 1171 (fun ctx => exists x i k, method_says mk_cacheable (q_method q) false /\ item E m "Cache-Control" x /\ part "item" x i /\
    In k ["max-age"; "max-stale"; "min-fresh"; "no-cache"; "no-store"; "only-if-cached"] /\ veq (const "CacheDirective" k) i = true /\ ctx = [(s "directive", CVal x)])].
(** httpolice/request.py:337-342 *)
Definition pair_context (x y : string) : list (str * carg) := [(s "directive1", CVal (const "CacheDirective" x)); (s "directive2", CVal (const "CacheDirective" y))].
Definition rules_directive_pairs : list rule := [
  Rule Req 1193 (fun ctx => exists x y, In (x, y) [("max-stale", "min-fresh"); ("stale-if-error", "min-fresh"); ("max-stale", "no-cache"); ("max-age", "no-cache")] /\
    directs E m x /\ directs E m y /\ ctx = pair_context x y)].
(** httpolice/request.py:344-352, 408-431 *)
Definition rules_authorization : list rule := [
  Rule Req 1209 (fun ctx => exists k c, In k auth_headers /\ basic k c /\ ~ stringy c /\ ctx = [header (s k)]);
  Rule Req 1210 (fun ctx => exists k c, In k auth_headers /\ basic k c /\ stringy c /\ e_base64 E (text_of c) = None /\ ctx = [header (s k); (s "error", CError)]);
  Rule Req 1211 (fun ctx => exists k c x, In k auth_headers /\ basic k c /\ stringy c /\ e_base64 E (text_of c) = Some x /\ ~ In 58%N x /\ ctx = [header (s k)]);
  Rule Req 1212 (fun ctx => exists k c x d, In k auth_headers /\ basic k c /\ stringy c /\ e_base64 E (text_of c) = Some x /\ In d x /\ (d <= 31 \/ d = 127)%N /\
    ctx = [header (s k); (s "char", CVal (VStr (hex d)))]);
  Rule Req 1261 (fun ctx => exists k c, In k auth_headers /\ bearer k c /\ insecure (q_scheme q) /\ ctx = [header (s k)]);
  Rule Req 1262 (fun ctx => exists k c, In k auth_headers /\ bearer k c /\ ~ stringy c /\ ctx = [header (s k)]);
  Rule Req 1274 (fun ctx => exists k c, In k auth_headers /\ other_scheme k c /\ truthy_val c = false /\ ctx = [header (s k)])].
(** httpolice/request.py:354-356 *)
Definition rules_patch : list rule := [plain Req 1213 (method_is ["PATCH"] /\ exists t, media_type E m t /\ patch_no t)].
(** httpolice/request.py:358-366 *)
Definition rules_h2c : list rule := [
  plain Req 1233 (exists x i, item E m "Upgrade" x /\ part "item" x i /\ veq i (const "UpgradeToken" "h2c") = true /\ secure (q_scheme q));
  plain Req 1231 (exists x i, item E m "Upgrade" x /\ part "item" x i /\ veq i (const "UpgradeToken" "h2c") = true /\ lacks m "HTTP2-Settings")].
Definition rules_settings_option : list rule := [
  plain Req 1230 (holds E m "HTTP2-Settings" /\ ~ mentions E m "Connection" (VStr (s "HTTP2-Settings")))].
(** httpolice/request.py:368-370 *)
Definition rules_settings : list rule := [
  plain Req 1234 (exists x c, header_value E m "HTTP2-Settings" (VStr x) /\ In c x /\ ~ urlsafe_char c)].
(** httpolice/request.py:372-377 *)
Definition rules_token_in_uri : list rule := [
  plain Req 1270 token_in_uri;
  about Req 1271 [(s "where", CVal (VStr (q_target q)))] (token_in_uri /\ insecure (q_scheme q));
  plain Req 1272 (token_in_uri /\ ~ directs E m "no-store")].
(** httpolice/request.py:379-381; what is displayed is the subject of C47 *)
Definition rules_token_in_body : list rule := [
  Rule Req 1271 (fun ctx => exists text notes, token_in_body /\ insecure (q_scheme q) /\ snd (displayable_body (of_request q) E) = Ok (text, notes) /\
    ctx = [(s "where", CVal (VTuple [text; VList (map VStr notes)]))])].
(** httpolice/request.py:383-388 *)
Definition rules_subsumptions : list rule := [
  Rule Req 1276 (fun ctx => exists k l ws x y, In k ["Accept"; "Accept-Charset"; "Accept-Encoding"; "Accept-Language"] /\ listed E m k l /\ Forall2 weighed l ws /\
    first_covered ws x y /\ ctx = [header (s k); (s "wildcard", CVal x); (s "value", CVal y)])].
(** httpolice/request.py:390-391 ([duplicates] is the subject of C49) *)
Definition preference_names (l : list val) : Prop :=
  exists ps, preferences E m ps /\ Forall2 (fun p n => exists r, unpack2 p = Some (n, r)) ps l.
Definition rules_duplicate_preferences : list rule := [
  Rule Req 1285 (fun ctx => exists l n, preference_names l /\ In n (duplicates veq l) /\ ctx = [(s "name", CVal n)])].
(** httpolice/request.py:393-405 *)
Definition rules_respond_async : list rule := [
  plain Req 1287 (method_says mk_safe (q_method q) true /\ exists v, prefers E m "respond-async" v /\ truthy_val v = true)].
Definition rules_return_minimal : list rule := [
  plain Req 1288 (method_is ["GET"] /\ exists v, prefers E m "return" v /\ veq v (VStr (s "minimal")) = true)].
Definition rules_return_both : list rule := [plain Req 1289 (wanted "return" "minimal" /\ wanted "return" "representation")].
Definition rules_handling_both : list rule := [plain Req 1290 (wanted "handling" "strict" /\ wanted "handling" "lenient")].

Definition request_rules : list (list rule) :=
  message_rules E (of_request q) (q_scheme q) None ++
  [rules_request_line; rules_uppercase; rules_untyped_body; rules_length_needed; rules_length_useless; rules_te_chunked; rules_te_http2;
   rules_te_connection; rules_host_missing; rules_host_first; rules_request_headers; rules_unexpected_body; rules_options_body;
   rules_expect; rules_max_forwards; rules_referer; rules_user_agent; rules_accept_encoding; rules_if_match; rules_head_preconditions;
   rules_preconditions; rules_range; rules_if_range; rules_if_range_weak; rules_cache_directives; rules_no_cache_pragma;
   rules_request_warnings; rules_uncacheable_method; rules_directive_pairs; rules_authorization; rules_patch; rules_h2c;
   rules_settings_option; rules_settings; rules_token_in_uri; rules_token_in_body; rules_subsumptions; rules_duplicate_preferences;
   rules_respond_async; rules_return_minimal; rules_return_both; rules_handling_both].
End Request.
