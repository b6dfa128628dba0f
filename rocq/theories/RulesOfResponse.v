(** When a notice about a response is due: a specification of the checks of
    responses and of exchanges that does not use their definitions.  It goes on
    from Rules.v. *)
From Coq Require Import ZifyBool ZifyNat ZifyN String.
From Verif Require Import Base Earley Grammar Syntax Actions Nested P_Types Text Structure Known Tables Header HeaderProofs P_Header P_Views Values Notices
  ChecksBase HeaderValue ChecksMessage ChecksRequest ChecksResponse P_Bodies Rules.
Open Scope nat_scope.
Open Scope list_scope.
Unset Strict Implicit.
Local Open Scope string_scope.
Local Open Scope list_scope.

(** ** A response by itself (httpolice/response.py:225-490) *)

Section Response.
Variable E : env.
(** A response, its number in the exchange, and the request. *)
Variable n : nat.
Variable p : response.
Variable req : option request.
Notation m := (p_msg p).
Notation w := (Resp n).
Notation st := (p_status p).
Notation j := (of_response n p req).
Notation header name := (s "header", CHeader w name).
Notation close := (VStr (s "close")).

(** Classes of status codes; a set of them. *)
Definition class (c : Z) : Prop := (c * 100 <= st <= c * 100 + 99)%Z.
Definition status (l : list Z) : Prop := In st l.
Definition late : Prop := st <> 103%Z.
Definition request_scheme : option str := match req with Some q => q_scheme q | None => None end.
(** What comes after "%" in an encoded octet. *)
Definition hex_digit (c : N) : Prop := ((48 <= c <= 57) \/ (65 <= c <= 70) \/ (97 <= c <= 102))%N.
Definition percent_encoded (x : str) : Prop := exists a c d b, x = a ++ [37; c; d]%N ++ b /\ hex_digit c /\ hex_digit d.

(** *** Whether it comes from a cache (httpolice/response.py:111-132) *)

(** Date together with Age is in the future. *)
Definition from_future : Prop :=
  late /\ exists v d a, header_value E m "Date" v /\ time_like v = Some d /\ header_value E m "Age" (VInt a) /\
    (e_now E w (s "from_cache") + 30 * micro < d + a * micro)%Z.
Definition from_age : Prop := late /\ ~ from_future /\ has m "Age".
(** The code of the first warning of this class. *)
Definition from_warning (code : val) : Prop :=
  late /\ ~ from_future /\ lacks m "Age" /\
  exists a x b, listed E m "Warning" (a ++ x :: b) /\ part "code" x code /\ code_in 100 199 code /\
    forall y c, In y a -> part "code" y c -> ~ code_in 100 199 c.
Definition cached : Prop := from_age \/ exists code, from_warning code.
Definition rules_from_cache : list rule := [
  plain w 1241 from_future;
  plain w 1168 from_age;
  Rule w 1169 (fun ctx => exists code, from_warning code /\ ctx = [(s "code", CVal code)])].

(** *** Whether it has expired (httpolice/response.py:134-171) *)

Definition by_113 : Prop := cached /\ mentions E m "Warning" (warn "113").
Definition by_nothing : Prop :=
  cached /\ ~ mentions E m "Warning" (warn "113") /\ lacks m "Expires" /\ ~ directs E m "max-age" /\ lacks m "Cache-Control".
Definition heuristic : Prop := by_113 \/ by_nothing.
Definition rules_heuristic : list rule := [plain w 1179 by_113; plain w 1178 by_nothing].

Definition unwarned : Prop := late /\ ~ mentions E m "Warning" (warn "110") /\ ~ mentions E m "Warning" (warn "111").
Definition stale_warning (code : string) : Prop :=
  late /\ mentions E m "Warning" (warn code) /\ (code = "110" \/ (code = "111" /\ ~ mentions E m "Warning" (warn "110"))).
(** Age is more than max-age; if there is no such directive, more than the time
    from Date to Expires, in seconds. *)
Definition stale_max_age : Prop :=
  unwarned /\ without E m "s-maxage" /\ exists v, directive E m "Cache-Control" "max-age" v /\ above E m "Age" v.
Definition stale_expires : Prop :=
  unwarned /\ without E m "s-maxage" /\ without E m "max-age" /\
  exists e d x y, header_value E m "Expires" e /\ header_value E m "Date" d /\ time_like e = Some x /\ time_like d = Some y /\
    above E m "Age" (VInt ((x - y) / micro)).
Definition is_stale : Prop := (exists code, stale_warning code) \/ stale_max_age \/ stale_expires.
Definition rules_stale : list rule := [
  Rule w 1183 (fun ctx => exists code, stale_warning code /\ ctx = [(s "code", CVal (warn code))]);
  plain w 1184 stale_max_age;
  plain w 1185 stale_expires].

(** *** Whether its body ends where the connection does (httpolice/response.py:188-204) *)

Definition until_close : Prop :=
  lacks m "Content-Length" /\ ~ mentions E m "Transfer-Encoding" (const "TransferCoding" "chunked") /\ ~ class 1 /\ ~ status [204; 304]%Z /\
  exists q, req = Some q /\ ~ method_is q ["HEAD"] /\ ~ (method_is q ["CONNECT"] /\ class 2) /\ version m ["HTTP/1.0"; "HTTP/1.1"].
Definition rules_until_close : list rule := [plain w 1025 until_close].

(** *** The rules *)

(** httpolice/response.py:238-240 *)
Definition rules_reason : list rule := [
  about w 1294 [(s "error", CError); (s "place", CVal (VStr (s "reason phrase")))] (exists r, p_reason p = Some r /\ not_parsed E reason_phrase r)].
(** httpolice/response.py:242-243 *)
Definition rules_status_range : list rule := [plain w 1167 (~ (100 <= st <= 599)%Z)].
(** httpolice/response.py:245-247 *)
Definition rules_close_option : list rule := rules_until_close ++ [
  plain w 1047 (until_close /\ version m ["HTTP/1.1"] /\ ~ mentions E m "Connection" close)].
(** httpolice/response.py:249-251 *)
Definition rules_response_headers : list rule := [
  Rule w 1064 (fun ctx => exists name, named m name /\ excluded hk_for_response name /\ ctx = [header name])].
(** httpolice/response.py:253-257 *)
Definition rules_switching : list rule := [
  plain w 1048 (status [101]%Z /\ lacks m "Upgrade"); plain w 1246 (status [101]%Z /\ version m ["HTTP/2"])].
(** httpolice/response.py:259-263 *)
Definition rules_no_content_body : list rule := [plain w 1240 (status [204]%Z /\ body_there m)].
Definition rules_reset_content_body : list rule := [plain w 1076 (status [205]%Z /\ body_there m)].
(** httpolice/response.py:265-275 *)
Definition rules_location_missing : list rule := [
  plain w 1078 (lacks m "Location" /\ status [301]%Z); plain w 1079 (lacks m "Location" /\ status [302]%Z);
  plain w 1080 (lacks m "Location" /\ status [303]%Z); plain w 1084 (lacks m "Location" /\ status [307]%Z);
  plain w 1205 (lacks m "Location" /\ status [308]%Z)].
(** httpolice/response.py:277-282 *)
Definition rules_odd_status : list rule := [plain w 1082 (status [305]%Z); plain w 1083 (status [306]%Z); plain w 1088 (status [402]%Z)].
(** httpolice/response.py:284-285 *)
Definition rules_allow_missing : list rule := [plain w 1089 (status [405]%Z /\ lacks m "Allow")].
(** httpolice/response.py:287-288 *)
Definition rules_timeout_close : list rule := [plain w 1094 (status [408]%Z /\ ~ mentions E m "Connection" close)].
(** httpolice/response.py:290-292 *)
Definition rules_date_missing : list rule := [plain w 1110 (lacks m "Date" /\ (class 2 \/ class 3 \/ class 4))].
(** httpolice/response.py:294-296 *)
Definition rules_created_fragment : list rule := [
  plain w 1111 (status [201]%Z /\ exists v u, header_value E m "Location" v /\ readable v /\ e_url E (text_of v) = Got u /\ snd u <> [])].
(** httpolice/response.py:298-299: Date is before Last-Modified *)
Definition rules_last_modified : list rule := [plain w 1118 (exists v, header_value E m "Last-Modified" v /\ below E m "Date" v)].
(** httpolice/response.py:301-310 *)
Definition rules_304_headers : list rule := [
  Rule w 1127 (fun ctx => exists name, status [304]%Z /\ named m name /\ ~ is_header name ["ETag"; "Last-Modified"] /\
    marked hk_representation_metadata name /\ ctx = [header name])].
(** httpolice/response.py:312-318, 885-891.  Parts are counted from 1; of each it
    is known whether it has Content-Range and whether it has Content-Type. *)
Definition byteranges : Prop := status [206]%Z /\ equals E m "Content-Type" (const "MediaType" "multipart/byteranges").
Definition body_part (i : nat) (a b : bool) : Prop := exists r ps, multipart E j r /\ parts r = Some ps /\ nth_error ps i = Some (a, b).
Definition rules_partial_content : list rule := [
  Rule w 1141 (fun ctx => exists i b, byteranges /\ body_part i false b /\ ctx = [(s "part_num", CVal (VInt (Z.of_nat (i + 1))))]);
  Rule w 1142 (fun ctx => exists i b, byteranges /\ body_part i b false /\ ctx = [(s "part_num", CVal (VInt (Z.of_nat (i + 1))))]);
  plain w 1143 (byteranges /\ has m "Content-Range");
  plain w 1138 (status [206]%Z /\ ~ byteranges /\ lacks m "Content-Range")].
(** httpolice/response.py:320-322 *)
Definition rules_response_directives : list rule := [
  Rule w 1153 (fun ctx => exists x i, item E m "Cache-Control" x /\ part "item" x i /\ directive_says ak_for_response (text_of i) false /\ ctx = [(s "directive", CVal i)])].
(** httpolice/response.py:324-325 *)
Definition rules_pragma_no_cache : list rule := [plain w 1162 (mentions E m "Pragma" (VStr (s "no-cache")))].
(** httpolice/response.py:327-330 *)
Definition blocked_by (x : val) : Prop :=
  exists ps d l v, part "param" x ps /\ params ps d /\ Structure.get veq d (VStr (s "rel")) (VList []) = Some (VList l) /\ In v l /\ veq v (VStr (s "blocked-by")) = true.
Definition rules_blocked_by : list rule := [plain w 1243 (status [451]%Z /\ ~ exists x, item E m "Link" x /\ blocked_by x)].
(** httpolice/response.py:332-352 *)
Definition disposition (d : list (val * val)) : Prop :=
  okay E m "Content-Disposition" /\ exists ps, has_part E m "Content-Disposition" "param" ps /\ params ps d.
Definition disposed (key : string) (v : val) : Prop := exists d, disposition d /\ Structure.get veq d (VStr (s key)) VNone = Some v.
Definition filename (x : str) : Prop := exists v, disposed "filename" v /\ v <> VNone /\ text_is v x.
Definition rules_disposition : list rule := [
  Rule w 1247 (fun ctx => exists d k, disposition d /\ In k (dup_keys veq d) /\ ctx = [(s "param", CVal k)]);
  plain w 1248 (exists x, filename x /\ percent_encoded x);
  plain w 1249 (exists x, filename x /\ (In 34%N x \/ In 92%N x));
  plain w 1250 (exists x c, filename x /\ In c x /\ (128 <= c)%N);
  plain w 1251 (disposed "filename" VNone /\ exists v, disposed "filename*" v /\ v <> VNone);
  plain w 1252 (exists d v v' a b, disposition d /\ disposed "filename" v /\ v <> VNone /\ disposed "filename*" v' /\ v' <> VNone /\
    index veq d (VStr (s "filename*")) = Some a /\ index veq d (VStr (s "filename")) = Some b /\ a < b)].
(** httpolice/response.py:354-358 *)
Definition rules_alt_svc : list rule := [
  plain w 1258 (has m "Alt-Svc" /\ version m ["HTTP/2"]); plain w 1260 (has m "Alt-Svc" /\ status [421]%Z)].
(** httpolice/response.py:360-368 *)
Definition transport_security (l : list val) : Prop := okay E m sts /\ members E m sts l.
Definition rules_sts : list rule := [
  plain w 1218 (exists l, transport_security l /\ ~ exists x, In x l /\ veq x (const "HSTSDirective" "max-age") = true);
  plain w 1219 (exists l v u, transport_security l /\ looked_up "max-age" l v /\ veq v (VInt 0) = true /\
    looked_up "includeSubDomains" l u /\ truthy_val u = true);
  Rule w 1220 (fun ctx => exists l is d, transport_security l /\ Forall2 (part "item") l is /\ In d (duplicates veq is) /\ ctx = [(s "directive", CVal d)])].
(** httpolice/response.py:370-372 *)
Definition rules_accept_patch : list rule := [
  Rule w 1227 (fun ctx => exists x i, item E m "Accept-Patch" x /\ part "item" x i /\ patch_no (text_of i) /\ ctx = [(s "patch_type", CVal i)])].
(** httpolice/response.py:374-390 *)
Definition rules_response_pairs : list rule := [
  Rule w 1193 (fun ctx => exists x y, In (x, y) [("public", "no-store"); ("private", "public"); ("private", "no-store");
      ("must-revalidate", "stale-while-revalidate"); ("must-revalidate", "stale-if-error")] /\
    directs E m x /\ directs E m y /\ ctx = pair_context x y)].
Definition rules_overridden : list rule := [
  Rule w 1238 (fun ctx => exists x y, In (x, y) [("max-age", "no-cache"); ("max-age", "no-store"); ("s-maxage", "private"); ("s-maxage", "no-cache"); ("s-maxage", "no-store")] /\
    directs E m x /\ bare E m y /\ ctx = pair_context x y)].
(** httpolice/response.py:392-393 *)
Definition rules_vary_host : list rule := [plain w 1235 (differs E m "Vary" (VStr (s "*")) /\ mentions E m "Vary" (const "FieldName" "Host"))].
(** httpolice/response.py:395-400 *)
Definition rules_challenge_missing : list rule := [plain w 1194 (status [401]%Z /\ lacks m "WWW-Authenticate")].
Definition rules_proxy_challenge_missing : list rule := [plain w 1195 (status [407]%Z /\ lacks m "Proxy-Authenticate")].
(** httpolice/response.py:402-407, 798-882 *)
Definition challenge (k scheme : string) (ps : val) : Prop :=
  exists x i, item E m k x /\ part "item" x i /\ veq i (const "AuthScheme" scheme) = true /\ part "param" x ps.
Definition challenge_headers : list string := ["WWW-Authenticate"; "Proxy-Authenticate"].
Definition basic_params (k : string) (d : list (val * val)) : Prop := exists ps, challenge k "Basic" ps /\ ~ stringy ps /\ params ps d.
Definition bearer_params (d : list (val * val)) : Prop :=
  exists ps, challenge "WWW-Authenticate" "Bearer" ps /\ ~ stringy ps /\ truthy_val ps = true /\ params ps d.
(** The request has a token in the header, or anywhere. *)
Definition token_in_header (q : request) : Prop :=
  okay E (q_msg q) "Authorization" /\ exists i, has_part E (q_msg q) "Authorization" "item" i /\ veq i (const "AuthScheme" "Bearer") = true.
Definition with_token (q : request) : Prop := token_in_header q \/ token_in_body E q \/ token_in_uri E q.
(** The status that goes with an error code. *)
Inductive goes_with (code : val) : Z -> Prop :=
| with_400 : veq (VStr (s "invalid_request")) code = true -> goes_with code 400
| with_401 : veq (VStr (s "invalid_request")) code = false -> veq (VStr (s "invalid_token")) code = true -> goes_with code 401
| with_403 : veq (VStr (s "invalid_request")) code = false -> veq (VStr (s "invalid_token")) code = false ->
             veq (VStr (s "insufficient_scope")) code = true -> goes_with code 403.
Definition rules_challenges : list rule := [
  Rule w 1273 (fun ctx => exists k ps, In k challenge_headers /\ challenge k "Basic" ps /\ stringy ps /\ ctx = [header (s k)]);
  Rule w 1206 (fun ctx => exists k d, In k challenge_headers /\ basic_params k d /\ contains veq d (VStr (s "realm")) = false /\ ctx = [header (s k)]);
  Rule w 1208 (fun ctx => exists k d c x, In k challenge_headers /\ basic_params k d /\ In c (getall veq d (VStr (s "charset"))) /\ text_is c x /\
    ~ P_Header.same_name x (s "utf-8") /\ ctx = [header (s k); (s "charset", CVal c)]);
  Rule w 1207 (fun ctx => exists k d x, In k challenge_headers /\ basic_params k d /\ In x (iter veq d) /\
    veq (VStr (s "charset")) x = false /\ veq (VStr (s "realm")) x = false /\ ctx = [header (s k); (s "param", CVal x)]);
  plain w 1263 (exists q ps, req = Some q /\ challenge "WWW-Authenticate" "Bearer" ps /\ insecure (q_scheme q));
  plain w 1264 (exists ps, challenge "WWW-Authenticate" "Bearer" ps /\ (stringy ps \/ truthy_val ps = false));
  Rule w 1265 (fun ctx => exists d k x, bearer_params d /\ In k (dup_keys veq d) /\
    In x ["realm"; "scope"; "error"; "error_description"; "error_uri"] /\ veq (VStr (s x)) k = true /\ ctx = [(s "param", CVal k)]);
  Rule w 1266 (fun ctx => exists d x y v, bearer_params d /\
    In (x, y) [("scope", scope); ("error", error); ("error_description", error_description); ("error_uri", error_uri)] /\
    getitem veq d (VStr (s x)) = Some v /\ not_parsed E y (text_of v) /\
    ctx = [(s "error", CError); (s "param", CVal (VStr (s x))); (s "value", CVal v)]);
  plain w 1267 (exists d q, bearer_params d /\ status [401]%Z /\ contains veq d (VStr (s "error")) = false /\ req = Some q /\ token_in_header q);
  Rule w 1268 (fun ctx => exists d code z, bearer_params d /\ getitem veq d (VStr (s "error")) = Some code /\ goes_with code z /\ z <> st /\
    ctx = [(s "error_code", CVal code); (s "expected_status", CVal (VInt z))]);
  Rule w 1269 (fun ctx => exists d q x, bearer_params d /\ req = Some q /\ lacks (q_msg q) "Authorization" /\ ~ with_token q /\
    In x ["error"; "error_description"; "error_uri"] /\ contains veq d (VStr (s x)) = true /\ ctx = [(s "param", CVal (VStr (s x)))])].

(** httpolice/response.py:417-421 *)
Definition rules_no_body_status : list rule := [
  plain w 1018 ((class 1 \/ status [204]%Z) /\ has m "Transfer-Encoding"); plain w 1023 ((class 1 \/ status [204]%Z) /\ has m "Content-Length")].
(** httpolice/response.py:423-424 *)
Definition rules_informational_close : list rule := [plain w 1198 (class 1 /\ mentions E m "Connection" close)].
(** httpolice/response.py:426-429 *)
Definition rules_informational_metadata : list rule := [
  Rule w 1052 (fun ctx => exists name, class 1 /\ named m name /\ marked hk_representation_metadata name /\ ctx = [header name])].
(** httpolice/response.py:431-443 *)
Definition rules_location_useless : list rule := [plain w 1112 (has m "Location" /\ ~ class 3 /\ ~ status [201]%Z)].
Definition rules_retry_after : list rule := [plain w 1113 (has m "Retry-After" /\ ~ class 3 /\ ~ status [413; 503; 429]%Z)].
Definition rules_content_range : list rule := [plain w 1147 (has m "Content-Range" /\ ~ status [206; 416]%Z)].
(** httpolice/response.py:445-457 *)
Definition rules_cached : list rule := rules_from_cache ++ [
  plain w 1166 (cached /\ lacks m "Age");
  plain w 1175 (cached /\ bare E m "no-cache");
  plain w 1176 (cached /\ directs E m "no-store");
  plain w 1202 (cached /\ status_says st NotAtAll);
  plain w 1177 (cached /\ status_says st NotByDefault /\ lacks m "Expires" /\ lacks m "Cache-Control")].
(** httpolice/response.py:459-466: one day, in seconds *)
Definition rules_expired : list rule := rules_heuristic ++ [
  plain w 1180 (heuristic /\ above E m "Age" (VInt (24 * 60 * 60)) /\ ~ mentions E m "Warning" (warn "113"));
  plain w 1181 (heuristic /\ has m "Expires");
  plain w 1182 (heuristic /\ lacks m "Expires" /\ ~ without E m "max-age")].
(** httpolice/response.py:468-472 *)
Definition rules_served_stale : list rule := rules_stale ++ [
  plain w 1186 (is_stale /\ ~ mentions E m "Warning" (warn "110")); plain w 1187 (is_stale /\ directs E m "must-revalidate")].
(** httpolice/response.py:474-481: Expires is not after Date *)
Definition rules_immutable : list rule := [
  plain w 1301 (directs E m "immutable" /\ (lacks m "Expires" \/ exists v, header_value E m "Expires" v /\ not_below E m "Date" v) /\ ~ directs E m "max-age");
  plain w 1302 (directs E m "immutable" /\ insecure request_scheme);
  plain w 1303 (directs E m "immutable" /\ until_close)].
(** httpolice/response.py:483-487 *)
Definition rules_allow : list rule := [
  plain w 1217 (has m "Allow" /\ has m "Accept-Patch" /\ ~ mentions E m "Allow" (const "Method" "PATCH"));
  plain w 1310 (has m "Allow" /\ has m "Accept-Post" /\ ~ mentions E m "Allow" (const "Method" "POST"))].
(** httpolice/response.py:489-490 *)
Definition rules_via_missing : list rule := [plain w 1046 (transformed E j /\ lacks m "Via")].

(** Early hints are exempt from the last ones. *)
Definition response_rules : list (list rule) :=
  message_rules E j request_scheme (Some st) ++
  [rules_reason; rules_status_range; rules_close_option; rules_response_headers; rules_switching; rules_no_content_body;
   rules_reset_content_body; rules_location_missing; rules_odd_status; rules_allow_missing; rules_timeout_close; rules_date_missing;
   rules_created_fragment; rules_last_modified; rules_304_headers; rules_partial_content; rules_response_directives;
   rules_pragma_no_cache; rules_blocked_by; rules_disposition; rules_alt_svc; rules_sts; rules_accept_patch; rules_response_pairs;
   rules_overridden; rules_vary_host; rules_challenge_missing; rules_proxy_challenge_missing; rules_challenges] ++
  (if (st =? 103)%Z then [] else
  [rules_no_body_status; rules_informational_close; rules_informational_metadata; rules_location_useless; rules_retry_after;
   rules_content_range; rules_cached; rules_expired; rules_served_stale; rules_immutable; rules_allow; rules_via_missing]).
End Response.

(** ** A response to a request (httpolice/response.py:493-795) *)

Section Context.
Variable E : env.
Variable n : nat.
Variable p : response.
Variable q : request.
Notation m := (p_msg p).
Notation mq := (q_msg q).
Notation w := (Resp n).
Notation st := (p_status p).
Notation j := (of_response n p (Some q)).
Notation header name := (s "header", CHeader w name).
Notation status := (status p).
Notation class := (class p).
Notation method_is := (method_is q).
Notation cached := (cached E n p).

(** httpolice/response.py:502-504 *)
Definition rules_untyped : list rule := [
  plain w 1041 (body_there m /\ lacks m "Content-Type" /\ (~ status [206]%Z \/ lacks mq "If-Range"))].
(** httpolice/response.py:506-512 *)
Definition connected : Prop := method_is ["CONNECT"] /\ class 2.
Definition rules_connect : list rule := [
  plain w 1019 (connected /\ has m "Transfer-Encoding"); plain w 1024 (connected /\ has m "Content-Length");
  plain w 1199 (connected /\ mentions E m "Connection" (VStr (s "close")))].
(** httpolice/response.py:514-518 *)
Definition rules_head_body : list rule := [plain w 1239 (method_is ["HEAD"] /\ body_there m)].
Definition rules_te_to_http10 : list rule := [plain w 1306 (version mq ["HTTP/1.0"] /\ has m "Transfer-Encoding")].
(** httpolice/response.py:520-523 *)
Definition rules_bad_host : list rule := [
  plain w 1033 (version mq ["HTTP/1.1"] /\
    (~ okay E mq "Host" \/ exists a e b f, entry_at (m_entries mq) a e /\ entry_at (m_entries mq) b f /\ a <> b /\
      P_Header.same_name (s "Host") (e_name e) /\ P_Header.same_name (s "Host") (e_name f)) /\
    (class 2 \/ class 3))].
(** httpolice/response.py:525-530 *)
Definition rules_proxy_transformed : list rule := [plain w 1237 (transformed E j /\ to_server E q)].
(** httpolice/response.py:528-530, httpolice/request.py:165-177: a notice on the
    request *)
Definition rules_to_proxy : list rule := [plain Req 1236 (to_proxy E q)].
Definition rules_proxy_via : list rule := rules_to_proxy ++ [plain w 1046 (to_proxy E q /\ class 2 /\ lacks m "Via")].
(** httpolice/response.py:532-542 *)
Definition rules_switched : list rule := [
  plain w 1049 (exists x, status [101]%Z /\ item E m "Upgrade" x /\ ~ mentions E mq "Upgrade" x);
  plain w 1232 (exists x i, status [101]%Z /\ item E m "Upgrade" x /\ mentions E mq "Upgrade" x /\ part "item" x i /\
    veq i (const "UpgradeToken" "h2c") = true /\ ~ okay E mq "HTTP2-Settings");
  plain w 1051 (status [101]%Z /\ version mq ["HTTP/1.0"]);
  plain w 1071 (~ status [101]%Z /\ class 1 /\ version mq ["HTTP/1.0"])].
(** The header refers to the URI of the request. *)
Definition refers_back (k : string) : Prop :=
  exists v u, header_value E m k v /\ readable v /\ uri E q u /\ u <> [] /\ e_join E u (text_of v) = Got u.
(** httpolice/response.py:544-553 *)
Definition rules_content_location : list rule := [
  plain w 1055 (refers_back "Content-Location" /\ method_is ["GET"; "HEAD"] /\ status [200; 203; 204; 206; 304]%Z);
  plain w 1060 (refers_back "Content-Location" /\ method_is ["DELETE"])].
(** httpolice/response.py:555-563 *)
Definition rules_self_redirect : list rule := [
  plain w 1085 (refers_back "Location" /\ (exists x, q_scheme q = Some x /\ x <> []) /\
    (status [300; 307; 308]%Z \/ (status [301; 302; 303]%Z /\ ~ method_is ["POST"])))].
(** httpolice/response.py:565-567 *)
Definition rules_partial_put : list rule := [plain w 1058 (method_is ["PUT"] /\ has mq "Content-Range" /\ class 2)].
(** httpolice/response.py:569-575 *)
Definition safe : Prop := method_says mk_safe (q_method q) true.
Definition rules_safe_method : list rule := [
  plain w 1072 (safe /\ status [201]%Z); plain w 1074 (safe /\ status [202]%Z); plain w 1095 (safe /\ status [409]%Z)].
(** httpolice/response.py:577-579 *)
Definition rules_created_location : list rule := [plain w 1073 (status [201]%Z /\ method_is ["POST"] /\ lacks m "Location")].
(** httpolice/response.py:581-605 *)
Definition empty_answer : Prop := ~ method_is ["HEAD"] /\ body_empty m.
Definition rules_empty_body : list rule := [
  plain w 1284 (empty_answer /\ status [202]%Z); plain w 1077 (empty_answer /\ status [300]%Z); plain w 1081 (empty_answer /\ status [303]%Z);
  plain w 1092 (empty_answer /\ status [406]%Z); plain w 1096 (empty_answer /\ status [409]%Z); plain w 1201 (empty_answer /\ status [428]%Z);
  plain w 1203 (empty_answer /\ status [429]%Z); plain w 1242 (empty_answer /\ status [451]%Z);
  plain w 1087 (empty_answer /\ class 4 /\ ~ status [406; 409; 428; 429; 451]%Z);
  plain w 1106 (empty_answer /\ status [505]%Z); plain w 1204 (empty_answer /\ status [511]%Z);
  plain w 1104 (empty_answer /\ class 5 /\ ~ status [505; 511]%Z)].
(** httpolice/response.py:607-610 *)
Definition rules_asterisk_redirect : list rule := [
  plain w 1086 (method_is ["OPTIONS"] /\ form E q "asterisk-form" /\ status [300; 301; 302; 307; 308]%Z)].
(** Of the headers of the request that have this property there is at least one,
    and they are all among these. *)
Definition just (f : header_info -> bool) (l : list string) : Prop :=
  (exists name, named mq name /\ marked f name) /\ forall name, named mq name -> marked f name -> is_header name l.
Definition none_of (f : header_info -> bool) : Prop := forall name, named mq name -> ~ marked f name.
(** httpolice/response.py:612-622 *)
Definition rules_not_acceptable : list rule := [
  plain w 1090 (status [406]%Z /\ none_of hk_proactive_conneg); plain w 1117 (status [406]%Z /\ just hk_proactive_conneg ["Accept-Language"])].
(** httpolice/response.py:624-625 *)
Definition rules_length_required : list rule := [plain w 1097 (status [411]%Z /\ okay E mq "Content-Length")].
(** httpolice/response.py:627-636 *)
Definition rules_no_request_body : list rule := [
  plain w 1098 (body_empty mq /\ status [413]%Z); plain w 1099 (body_empty mq /\ status [415]%Z /\ lacks mq "Content-Type")].
(** httpolice/response.py:638-639 *)
Definition rules_expectation : list rule := [plain w 1100 (status [417]%Z /\ lacks mq "Expect")].
(** httpolice/response.py:641-647: the first protocol that both have *)
Definition common_protocol (x : val) : Prop :=
  exists a b, listed E m "Upgrade" (a ++ x :: b) /\ mentions E mq "Upgrade" x /\ forall y, In y a -> ~ mentions E mq "Upgrade" y.
Definition rules_common_upgrade : list rule := [
  Rule w 1102 (fun ctx => exists x, common_protocol x /\ status [426]%Z /\ ctx = [(s "protocol", CVal x)]);
  Rule w 1103 (fun ctx => exists x, common_protocol x /\ class 2 /\ ctx = [(s "protocol", CVal x)])].
(** httpolice/response.py:649-650 *)
Definition rules_upgrade_required : list rule := [plain w 1101 (status [426]%Z /\ ~ holds E m "Upgrade")].
(** httpolice/response.py:652-654 *)
Definition rules_version_refused : list rule := [
  plain w 1105 (status [505]%Z /\ exists v, v <> [] /\ m_version m = Some v /\ m_version mq = Some v)].
(** httpolice/response.py:656-661 *)
Definition allowed : Prop := mentions E m "Allow" (VObj (s "Method") [VStr (q_method q)]).
Definition rules_allowed : list rule := [
  plain w 1114 (status [405]%Z /\ allowed); plain w 1115 (class 2 /\ has m "Allow" /\ ~ allowed)].
(** httpolice/response.py:663-675.  Tags, whether weak or not. *)
Definition same_tag (x y : val) : Prop := exists a b, part "opaque_tag" x a /\ part "opaque_tag" y b /\ veq a b = true.
Definition reading : Prop := method_is ["GET"; "HEAD"].
Definition rules_not_modified_needed : list rule := [
  plain w 1121 (reading /\ class 2 /\ okay E m "ETag" /\
    (equals E mq "If-None-Match" (VStr (s "*")) \/ exists x e, item E mq "If-None-Match" x /\ header_value E m "ETag" e /\ same_tag x e));
  plain w 1123 (reading /\ class 2 /\ ~ okay E m "ETag" /\ exists v, header_value E m "Last-Modified" v /\ not_below E mq "If-Modified-Since" v)].
(** httpolice/response.py:677-695 *)
Definition rules_no_precondition : list rule := [
  plain w 1124 (status [304]%Z /\ ~ reading);
  plain w 1125 (((status [304]%Z /\ reading) \/ status [412]%Z) /\ none_of hk_precondition);
  plain w 1128 (status [412]%Z /\ ~ reading /\ just hk_precondition ["If-Modified-Since"]);
  plain w 1129 (status [412]%Z /\ ~ just hk_precondition ["If-Modified-Since"] /\ method_is ["CONNECT"; "OPTIONS"; "TRACE"] /\
    just hk_precondition ["If-Match"; "If-None-Match"; "If-Modified-Since"; "If-Unmodified-Since"; "If-Range"])].
(** httpolice/response.py:697-718 *)
Definition in_bytes : Prop :=
  okay E mq "Range" /\ exists u, has_part E mq "Range" "unit" u /\ veq u (const "RangeUnit" "bytes") = true.
(** Not both strong and the same. *)
Definition strong (x : val) : Prop := exists b, part "weak" x b /\ truthy_val b = false.
Definition rules_partial_range : list rule := [
  plain w 1136 (status [206]%Z /\ lacks mq "Range"); plain w 1137 (status [206]%Z /\ has mq "Range" /\ ~ method_is ["GET"])].
Definition rules_single_range : list rule := [
  plain w 1144 (byteranges E p /\ in_bytes /\ ((exists x, has_part E mq "Range" "ranges" (VList [x])) \/ exists c, has_part E mq "Range" "ranges" (VStr [c])))].
Definition rules_if_range_tag : list rule := [
  plain w 1145 (exists v e, status [206]%Z /\ header_value E mq "If-Range" v /\ an "EntityTag" v /\ header_value E m "ETag" e /\ readable e /\
    ~ (strong e /\ strong v /\ same_tag e v))].
Definition rules_if_range_metadata : list rule := [
  Rule w 1146 (fun ctx => exists name, status [206]%Z /\ has mq "If-Range" /\ named m name /\ marked hk_representation_metadata name /\
    ~ is_header name ["ETag"; "Content-Location"] /\ ctx = [header name])].
(** httpolice/response.py:720-726 *)
Definition rules_range_refused : list rule := [
  plain w 1149 (status [416]%Z /\ lacks mq "Range"); plain w 1150 (status [416]%Z /\ in_bytes /\ lacks m "Content-Range")].
(** httpolice/response.py:728-737 *)
Definition rules_cache_in_context : list rule := [
  plain w 1172 (cached /\ method_says mk_cacheable (q_method q) false);
  plain w 1170 (cached /\ exists v, directive E mq "Cache-Control" "max-age" v /\ above E m "Age" v);
  plain w 1173 (cached /\ directs E mq "no-cache");
  plain w 1174 (cached /\ ~ directs E mq "no-cache" /\ lacks mq "Cache-Control" /\ mentions E mq "Pragma" (VStr (s "no-cache")))].
(** httpolice/response.py:739-746 *)
Definition rules_stale_in_context : list rule := [
  plain w 1188 (is_stale E p /\ ~ mentions E m "Warning" (warn "111") /\ ~ mentions E m "Warning" (warn "112") /\
    without E mq "max-stale" /\ without E mq "stale-if-error" /\ without E m "stale-if-error" /\ without E m "stale-while-revalidate")].
(** httpolice/response.py:748-752: the first of them *)
Definition rules_precondition_required : list rule := [
  Rule w 1200 (fun ctx => exists name l, status [428]%Z /\ picked (marked hk_precondition) (names (m_entries mq)) (name :: l) /\
    ctx = [(s "header", CHeader Req name)])].
(** httpolice/response.py:754-761 *)
Definition rules_patch_response : list rule := [
  plain w 1214 (method_is ["PATCH"] /\ class 2 /\ exists t, media_type E mq t /\ patch_no t);
  plain w 1215 (method_is ["PATCH"] /\ status [415]%Z /\ lacks m "Accept-Patch")].
(** httpolice/response.py:763-765 *)
Definition rules_sts_over_http : list rule := [plain w 1221 (has m sts /\ insecure (q_scheme q))].
(** httpolice/response.py:767-770 *)
Definition rules_misdirected : list rule := [
  plain w 1283 (status [421]%Z /\ method_says mk_cacheable (q_method q) true /\ ~ directs E m "no-store")].
(** httpolice/response.py:772-776 *)
Definition rules_applied : list rule := [
  Rule w 1286 (fun ctx => exists x ps i v u, item E m "Preference-Applied" x /\ preferences E mq ps /\ (forall y, In y ps -> veq y x = false) /\
    part "item" x i /\ part "param" x v /\ ((v = VNone /\ u = VStr []) \/ (v <> VNone /\ u = VTuple [VStr (s "="); v])) /\
    ctx = [(s "name", CVal i); (s "value", CVal u)])].
(** httpolice/response.py:786-795 *)
Definition rules_options_patch : list rule := [
  plain w 1216 (method_is ["OPTIONS"] /\ mentions E m "Allow" (const "Method" "PATCH") /\ lacks m "Accept-Patch")].
Definition rules_vary_prefer : list rule := [
  plain w 1291 (has m "Preference-Applied" /\ method_is ["GET"] /\ differs E m "Vary" (VStr (s "*")) /\
    ~ mentions E m "Vary" (const "FieldName" "Prefer"))].

Definition context_rules : list (list rule) :=
  [rules_untyped; rules_connect; rules_head_body; rules_te_to_http10; rules_bad_host; rules_proxy_transformed;
   rules_proxy_via; rules_switched; rules_content_location; rules_self_redirect; rules_partial_put; rules_safe_method;
   rules_created_location; rules_empty_body; rules_asterisk_redirect; rules_not_acceptable; rules_length_required;
   rules_no_request_body; rules_expectation; rules_common_upgrade; rules_upgrade_required; rules_version_refused; rules_allowed;
   rules_not_modified_needed; rules_no_precondition; rules_partial_range; rules_single_range; rules_if_range_tag;
   rules_if_range_metadata; rules_range_refused; rules_cache_in_context; rules_stale_in_context; rules_precondition_required;
   rules_patch_response; rules_sts_over_http; rules_misdirected; rules_applied] ++
  (if (st =? 103)%Z then [] else [rules_options_patch; rules_vary_prefer]).
End Context.

(** ** An exchange (httpolice/exchange.py:58-71, httpolice/response.py:207-215) *)

Section Exchange.
Variable E : env.
Variable x : exchange.
Definition final (p : response) : Prop := ~ class p 1.
(** The event is one that a rule requires when the exchange is checked. *)
Inductive required : event -> Prop :=
| by_request q e : x_request x = Some q -> due (List.concat (request_rules E q)) e -> required e
| by_response n p e : nth_error (x_responses x) n = Some p -> due (List.concat (response_rules E n p (x_request x))) e -> required e
| by_both n p q e : nth_error (x_responses x) n = Some p -> x_request x = Some q -> due (List.concat (context_rules E n p q)) e -> required e
(** There is a final response before it; this is the first one. *)
| by_final n p f pf : nth_error (x_responses x) n = Some p -> f < n -> nth_error (x_responses x) f = Some pf -> final pf ->
    (forall i pi, i < f -> nth_error (x_responses x) i = Some pi -> ~ final pi) ->
    required (Said (Resp n) 1304 [(s "previous", CResponse f)])
(** Switching protocols although the client waits for 100 (Continue). *)
| by_expectation n p q : nth_error (x_responses x) n = Some p -> x_request x = Some q -> equals E (q_msg q) "Expect" (VStr (s "100-continue")) ->
    p_status p = 101%Z -> (forall i pi, i <= n -> nth_error (x_responses x) i = Some pi -> p_status pi <> 100%Z) ->
    required (Said (Resp n) 1305 []).
End Exchange.
