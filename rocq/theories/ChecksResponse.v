(** Checks of responses (httpolice/response.py) and of exchanges
    (httpolice/exchange.py). *)
From Coq Require Import ZifyBool ZifyNat ZifyN String.
From Verif Require Import Base Earley Grammar Syntax Actions Text Structure Known Tables Header Values ChecksBase ChecksMessage ChecksRequest.
Open Scope nat_scope.
Open Scope list_scope.
Unset Strict Implicit.
Local Open Scope string_scope.
Local Open Scope list_scope.

(** [StatusCode] (httpolice/structure.py:193-205). *)
Definition between (lo hi x : Z) : bool := ((lo <=? x) && (x <=? hi))%Z.
Definition informational : Z -> bool := between 100 199.
Definition successful : Z -> bool := between 200 299.
Definition redirection : Z -> bool := between 300 399.
Definition client_error : Z -> bool := between 400 499.
Definition server_error : Z -> bool := between 500 599.

(** The last moment that a [datetime] can be, in microseconds. *)
Definition last_moment : Z := ((ordinal 9999 12 31 + 1) * 86400 * micro - 1)%Z.

Section Response.
(** A response, its number in the exchange, and the request. *)
Variable n : nat.
Variable p : response.
Variable req : option request.
Let j := of_response n p req.
Let status := p_status p.
Let version := m_version (p_msg p).
Let body := m_body (p_msg p).
Let tls := request_tls req.
Definition status_in (l : list Z) : bool := existsb (Z.eqb status) l.
Definition rarg (name : string) : str * carg := (s "header", CHeader (Resp n) (s name)).
Definition rname (name : str) : str * carg := (s "header", CHeader (Resp n) name).
(** [bool(headers.cache_control[key])], [headers.cache_control[key] is None]. *)
Definition cc (key : string) : M val := directive_of j "Cache-Control" key.
Definition cc_true (key : string) : M bool := v <- cc key ;; ret (truthy_val v).
Definition cc_none (key : string) : M bool := v <- cc key ;; ret (is_none v).

(** ** Derived properties *)

(** [from_cache] (httpolice/response.py:111-132). *)
Definition from_cache_date : M bool :=
  ifM (okayM j "Date" &? okayM j "Age")
    (date <- value j "Date" ;; d <- some_of (time_like date) ;;
     age <- value j "Age" ;; a <- some_of (match age with VInt z => Some z | _ => None end) ;;
     now <- ask e_now ;;
     if (last_moment <? d + a * micro)%Z then raise FromDate
     else if (now (Resp n) (s "from_cache") + 30 * micro <? d + a * micro)%Z then say j 1241 [] ;;; ret true
     else ret false)
    (ret false).
Fixpoint first_cache_warning (l : list val) : M (option bool) :=
  match l with
  | [] => ret None
  | w :: l' =>
      code <- field "code" w ;;
      ifM (code_between 100 199 code) (say j 1169 [(s "code", CVal code)] ;;; ret (Some true)) (first_cache_warning l')
  end.
Definition from_cache : M (option bool) :=
  if status_in [103]%Z then ret (Some false)
  else
    ifM from_cache_date (ret None)
      (ifM (present j "Age") (say j 1168 [] ;;; ret (Some true))
         (l <- items j "Warning" ;; first_cache_warning l)).
(** [heuristic_expiration] (httpolice/response.py:134-148). *)
Definition heuristic_expiration : M (option bool) :=
  c <- from_cache ;;
  if says_yes c then
    ifM (has_item j "Warning" (warn "113")) (say j 1179 [] ;;; ret (Some true))
      (ifM (present j "Expires") (ret (Some false))
         (ifM (cc_true "max-age") (ret (Some false))
            (ifM (absent j "Cache-Control") (say j 1178 [] ;;; ret (Some true)) (ret None))))
  else ret c.
(** [stale] (httpolice/response.py:150-171). *)
Definition stale_by_warning (code : string) (rest : M (option bool)) : M (option bool) :=
  ifM (has_item j "Warning" (warn code)) (say j 1183 [(s "code", CVal (warn code))] ;;; ret (Some true)) rest.
Definition lifetime : M val :=
  e <- value j "Expires" ;; d <- value j "Date" ;;
  x <- some_of (time_like e) ;; y <- some_of (time_like d) ;; ret (VInt ((x - y) / micro)).
Definition stale : M (option bool) :=
  if status_in [103]%Z then ret (Some false)
  else
    stale_by_warning "110" (stale_by_warning "111"
      (ifM (cc_none "s-maxage")
         (ifM (v <- cc "max-age" ;; compare is_gt j "Age" v) (say j 1184 [] ;;; ret (Some true))
            (ifM (cc_none "max-age" &? okayM j "Expires" &? okayM j "Date" &? (d <- lifetime ;; compare is_gt j "Age" d))
               (say j 1185 [] ;;; ret (Some true)) (ret None)))
         (ret None))).
(** [delimited_by_close] (httpolice/response.py:188-204). *)
Definition delimited_by_close : M (option bool) :=
  ifM (present j "Content-Length" |? has_item j "Transfer-Encoding" (const "TransferCoding" "chunked") |?
       pure (informational status) |? pure (status_in [204; 304]%Z) |? pure (version_in version ["HTTP/2"]))
    (ret (Some false))
    (match req with
     | Some q =>
         if one_of_strs (q_method q) ["HEAD"] then ret (Some false)
         else if one_of_strs (q_method q) ["CONNECT"] && successful status then ret (Some false)
         else if version_in version ["HTTP/1.0"; "HTTP/1.1"] then say j 1025 [] ;;; ret (Some true)
         else ret None
     | None => ret None
     end).
Definition yesM (m : M (option bool)) : M bool := b <- m ;; ret (says_yes b).

(** ** [check_response_itself] (httpolice/response.py:225-490), one by one *)

(** httpolice/response.py:226-227 *)
Definition silence_itself : M unit :=
  l <- items j "HTTPolice-Silence" ;; ids <- silence_ids (fun _ => true) l ;; silence j ids.
(** httpolice/response.py:238-240 *)
Definition check_reason : M unit :=
  match p_reason p with
  | Some r => _ <- parse_text j reason_phrase r 1294 [(s "place", CVal (VStr (s "reason phrase")))] ;; ret tt
  | None => ret tt
  end.
(** httpolice/response.py:242-243 *)
Definition check_status_range : M unit := when (pure (negb (between 100 599 status))) (say j 1167 []).
(** httpolice/response.py:245-247 *)
Definition check_close_option : M unit :=
  when (yesM delimited_by_close &? pure (version_in version ["HTTP/1.1"]) &? notM (has_item j "Connection" (VStr (s "close")))) (say j 1047 []).
(** httpolice/response.py:249-251 *)
Definition check_response_headers : M unit :=
  for_each (header_names j) (fun name => when (pure (says_no (header_flag hk_for_response name))) (say j 1064 [rname name])).
(** httpolice/response.py:253-257 *)
Definition check_switching : M unit :=
  if status_in [101]%Z then
    when (absent j "Upgrade") (say j 1048 []) ;;; when (pure (version_in version ["HTTP/2"])) (say j 1246 [])
  else ret tt.
(** httpolice/response.py:259-263 *)
Definition check_no_content_body : M unit := when (pure (status_in [204]%Z && truthy_val body)) (say j 1240 []).
Definition check_reset_content_body : M unit := when (pure (status_in [205]%Z && truthy_val body)) (say j 1076 []).
(** httpolice/response.py:265-275 *)
Definition check_location_missing : M unit :=
  when (absent j "Location")
    (if status_in [301]%Z then say j 1078 [] else if status_in [302]%Z then say j 1079 []
     else if status_in [303]%Z then say j 1080 [] else if status_in [307]%Z then say j 1084 []
     else if status_in [308]%Z then say j 1205 [] else ret tt).
(** httpolice/response.py:277-282 *)
Definition check_odd_status : M unit :=
  if status_in [305]%Z then say j 1082 [] else if status_in [306]%Z then say j 1083 []
  else if status_in [402]%Z then say j 1088 [] else ret tt.
(** httpolice/response.py:284-285 *)
Definition check_allow_missing : M unit := when (pure (status_in [405]%Z) &? absent j "Allow") (say j 1089 []).
(** httpolice/response.py:287-288 *)
Definition check_timeout_close : M unit :=
  when (pure (status_in [408]%Z) &? notM (has_item j "Connection" (VStr (s "close")))) (say j 1094 []).
(** httpolice/response.py:290-292 *)
Definition check_date_missing : M unit :=
  when (absent j "Date" &? pure (successful status || redirection status || client_error status)) (say j 1110 []).
(** httpolice/response.py:294-296 *)
Definition check_created_fragment : M unit :=
  when (pure (status_in [201]%Z) &? okayM j "Location" &?
        (v <- value j "Location" ;; url <- ask e_url ;; u <- result_of (url (text_of v)) ;; ret (nonempty (snd u))))
    (say j 1111 []).
(** httpolice/response.py:298-299 *)
Definition check_last_modified : M unit :=
  when (v <- value j "Last-Modified" ;; compare is_lt j "Date" v) (say j 1118 []).
(** httpolice/response.py:301-310 *)
Definition check_304_headers : M unit :=
  if status_in [304]%Z then
    for_each (header_names j) (fun name =>
      if among name ["ETag"; "Last-Modified"] then ret tt
      else when (pure (flag_of hk_representation_metadata name)) (say j 1127 [rname name]))
  else ret tt.
(** [_check_multipart_byteranges] (httpolice/response.py:885-891). *)
Definition check_byteranges : M unit :=
  d <- multipart_data j ;;
  match d with
  | Some l =>
      for_each (number 1 l) (fun part =>
        let num := [(s "part_num", CVal (VInt (Z.of_nat (fst part))))] in
        when (pure (negb (fst (snd part)))) (say j 1141 num) ;;; when (pure (negb (snd (snd part)))) (say j 1142 num))
  | None => ret tt
  end.
(** httpolice/response.py:312-318 *)
Definition check_partial_content : M unit :=
  if status_in [206]%Z then
    ifM (is_equal j "Content-Type" (const "MediaType" "multipart/byteranges"))
      (check_byteranges ;;; when (present j "Content-Range") (say j 1143 []))
      (when (absent j "Content-Range") (say j 1138 []))
  else ret tt.
(** httpolice/response.py:320-322 *)
Definition check_response_directives : M unit :=
  l <- items j "Cache-Control" ;;
  for_each l (fun d =>
    i <- field "item" d ;;
    when (pure (says_no (directive_flag ak_for_response (text_of i)))) (say j 1153 [(s "directive", CVal i)])).
(** httpolice/response.py:324-325 *)
Definition check_pragma_no_cache : M unit := when (has_item j "Pragma" (VStr (s "no-cache"))) (say j 1162 []).
(** httpolice/response.py:327-330: [u'blocked-by' in rel] raises when the
    relation was not parsed. *)
Definition is_blocked_by (link : val) : M bool :=
  params <- field "param" link ;;
  rel <- dict_get params (VStr (s "rel")) (VList []) ;;
  match rel with
  | VList l => ret (existsb (fun v => veq v (VStr (s "blocked-by"))) l)
  | VUnavailable _ => raise FromRelation
  | _ => raise Mistake
  end.
Definition check_blocked_by : M unit :=
  when (pure (status_in [451]%Z) &? notM (l <- items j "Link" ;; anyM is_blocked_by l)) (say j 1243 []).
(** httpolice/response.py:332-352 *)
Definition check_filename (f : val) : M unit :=
  match str_like f with
  | Some (Plain x) | Some (CI x) =>
      when (pure (contains_percent_encodes x)) (say j 1248 []) ;;;
      when (pure (existsb (N.eqb 34) x || existsb (N.eqb 92) x)) (say j 1249 []) ;;;
      when (pure (negb (is_ascii x))) (say j 1250 [])
  | None => raise Mistake
  end.
Definition check_filename_order (d : list (val * val)) : M unit :=
  a <- some_of (index veq d (VStr (s "filename*"))) ;; b <- some_of (index veq d (VStr (s "filename"))) ;;
  when (pure (Nat.ltb a b)) (say j 1252 []).
Definition check_disposition : M unit :=
  when (okayM j "Content-Disposition")
    (params <- attr_of j "Content-Disposition" "param" ;;
     d <- dict params ;;
     for_each (dup_keys veq d) (fun k => say j 1247 [(s "param", CVal k)]) ;;;
     filename <- dict_get params (VStr (s "filename")) VNone ;;
     (if is_none filename then ret tt else check_filename filename) ;;;
     filename_ext <- dict_get params (VStr (s "filename*")) VNone ;;
     if is_none filename_ext then ret tt
     else if is_none filename then say j 1251 []
     else check_filename_order d).
(** httpolice/response.py:354-358 *)
Definition check_alt_svc : M unit :=
  when (present j "Alt-Svc")
    (when (pure (version_in version ["HTTP/2"])) (say j 1258 []) ;;; when (pure (status_in [421]%Z)) (say j 1260 [])).
(** httpolice/response.py:360-368 *)
Definition sts : string := "Strict-Transport-Security".
Definition check_sts : M unit :=
  when (okayM j sts)
    (when (notM (has_item j sts (const "HSTSDirective" "max-age"))) (say j 1218 []) ;;;
     when ((v <- directive_of j sts "max-age" ;; ret (veq v (VInt 0))) &?
           (v <- directive_of j sts "includeSubDomains" ;; ret (truthy_val v)))
       (say j 1219 []) ;;;
     l <- items j sts ;;
     is <- mapM (field "item") l ;;
     for_each (duplicates veq is) (fun d => say j 1220 [(s "directive", CVal d)])).
(** httpolice/response.py:370-372 *)
Definition check_accept_patch : M unit :=
  l <- items j "Accept-Patch" ;;
  for_each l (fun v => i <- field "item" v ;; when (pure (says_no (media_patch (text_of i)))) (say j 1227 [(s "patch_type", CVal i)])).
(** httpolice/response.py:374-390 *)
Definition two_directives (d : string * string) : list (str * carg) :=
  [(s "directive1", CVal (const "CacheDirective" (fst d))); (s "directive2", CVal (const "CacheDirective" (snd d)))].
Definition check_response_pairs : M unit :=
  for_each [("public", "no-store"); ("private", "public"); ("private", "no-store"); ("must-revalidate", "stale-while-revalidate");
            ("must-revalidate", "stale-if-error")]
    (fun d => when (cc_true (fst d) &? cc_true (snd d)) (say j 1193 (two_directives d))).
Definition is_bare (v : val) : bool := veq v (VBool true) || veq v (VList []).
Definition cc_bare (key : string) : M bool := v <- cc key ;; ret (is_bare v).
Definition check_overridden : M unit :=
  for_each [("max-age", "no-cache"); ("max-age", "no-store"); ("s-maxage", "private"); ("s-maxage", "no-cache"); ("s-maxage", "no-store")]
    (fun d => when (cc_true (fst d) &? cc_bare (snd d)) (say j 1238 (two_directives d))).
(** httpolice/response.py:392-393 *)
Definition check_vary_host : M unit :=
  when (is_unequal j "Vary" (VStr (s "*")) &? has_item j "Vary" (const "FieldName" "Host")) (say j 1235 []).
(** httpolice/response.py:395-400 *)
Definition check_challenge_missing : M unit := when (pure (status_in [401]%Z) &? absent j "WWW-Authenticate") (say j 1194 []).
Definition check_proxy_challenge_missing : M unit := when (pure (status_in [407]%Z) &? absent j "Proxy-Authenticate") (say j 1195 []).
(** [_check_basic_challenge] (httpolice/response.py:798-808).  The order in
    which a set gives its elements is not known; the model takes that of the
    dictionary. *)
Definition check_basic_challenge (name : string) (params : val) : M unit :=
  if is_str params then say j 1273 [rarg name]
  else
    when (notM (dict_has params (VStr (s "realm")))) (say j 1206 [rarg name]) ;;;
    d <- dict params ;;
    for_each (getall veq d (VStr (s "charset"))) (fun c =>
      x <- some_of match str_like c with Some (Plain x) | Some (CI x) => Some x | None => None end ;;
      when (pure (negb (str_eqb (lower x) (s "utf-8")))) (say j 1208 [rarg name; (s "charset", CVal c)])) ;;;
    for_each (filter (fun k => negb (mem_val k [VStr (s "charset"); VStr (s "realm")])) (iter veq d))
      (fun k => say j 1207 [rarg name; (s "param", CVal k)]).
(** [_check_bearer_challenge] (httpolice/response.py:811-882), for
    WWW-Authenticate. *)
Definition bearer_in_header (q : request) : M bool :=
  okayM (of_request q) "Authorization" &?
  (i <- attr_of (of_request q) "Authorization" "item" ;; ret (veq i (const "AuthScheme" "Bearer"))).
Definition request_has_token (q : request) : M bool :=
  bearer_in_header q |?
  (d <- url_encoded_data (of_request q) ;; ret (match d with Some keys => has_token keys | None => false end)) |?
  (keys <- query_params q ;; ret (has_token keys)).
Definition error_symbols : list (string * symbol) :=
  [("scope", scope); ("error", error); ("error_description", error_description); ("error_uri", error_uri)].
Definition expected_status (code : val) : option Z :=
  if veq (VStr (s "invalid_request")) code then Some 400%Z
  else if veq (VStr (s "invalid_token")) code then Some 401%Z
  else if veq (VStr (s "insufficient_scope")) code then Some 403%Z
  else None.
Definition check_bearer_params (params : val) (token : option bool) : M unit :=
  d <- dict params ;;
  for_each (dup_keys veq d) (fun k =>
    when (pure (mem_val k (map (fun x => VStr (s x)) ["realm"; "scope"; "error"; "error_description"; "error_uri"])))
      (say j 1265 [(s "param", CVal k)])) ;;;
  for_each error_symbols (fun x =>
    match getitem veq d (VStr (s (fst x))) with
    | Some v => _ <- parse_text j (snd x) (text_of v) 1266 [(s "param", CVal (VStr (s (fst x)))); (s "value", CVal v)] ;; ret tt
    | None => ret tt
    end) ;;;
  when (pure (status_in [401]%Z && negb (contains veq d (VStr (s "error")))) &?
        match req with Some q => bearer_in_header q | None => ret false end)
    (say j 1267 []) ;;;
  (match getitem veq d (VStr (s "error")) with
   | Some code =>
       match expected_status code with
       | Some x => when (pure (negb (x =? status)%Z)) (say j 1268 [(s "error_code", CVal code); (s "expected_status", CVal (VInt x))])
       | None => ret tt
       end
   | None => ret tt
   end) ;;;
  when (match req with Some q => absent (of_request q) "Authorization" | None => ret false end &? pure (negb (says_yes token)))
    (for_each ["error"; "error_description"; "error_uri"] (fun x =>
       when (pure (contains veq d (VStr (s x)))) (say j 1269 [(s "param", CVal (VStr (s x)))]))).
Definition check_bearer_challenge (params : val) : M unit :=
  token <- (match req with
            | Some q => when (pure (says_no (scheme_tls (q_scheme q)))) (say j 1263 []) ;;; b <- request_has_token q ;; ret (Some b)
            | None => ret None
            end) ;;
  if is_str params || negb (truthy_val params) then say j 1264 []
  else check_bearer_params params token.
(** httpolice/response.py:402-407 *)
Definition check_challenges : M unit :=
  for_each ["WWW-Authenticate"; "Proxy-Authenticate"] (fun name =>
    l <- items j name ;;
    for_each l (fun challenge =>
      i <- field "item" challenge ;;
      params <- field "param" challenge ;;
      (if veq i (const "AuthScheme" "Basic") then check_basic_challenge name params else ret tt) ;;;
      (if veq i (const "AuthScheme" "Bearer") && among (s name) ["WWW-Authenticate"] then check_bearer_challenge params else ret tt))).
(** httpolice/response.py:417-421 *)
Definition check_no_body_status : M unit :=
  if informational status || status_in [204]%Z then
    when (present j "Transfer-Encoding") (say j 1018 []) ;;; when (present j "Content-Length") (say j 1023 [])
  else ret tt.
(** httpolice/response.py:423-424 *)
Definition check_informational_close : M unit :=
  when (pure (informational status) &? has_item j "Connection" (VStr (s "close"))) (say j 1198 []).
(** httpolice/response.py:426-429 *)
Definition check_informational_metadata : M unit :=
  for_each (header_names j) (fun name =>
    when (pure (flag_of hk_representation_metadata name && informational status)) (say j 1052 [rname name])).
(** httpolice/response.py:431-443 *)
Definition check_location_useless : M unit :=
  when (present j "Location" &? pure (negb (redirection status) && negb (status_in [201]%Z))) (say j 1112 []).
Definition check_retry_after : M unit :=
  when (present j "Retry-After" &? pure (negb (redirection status) && negb (status_in [413; 503; 429]%Z))) (say j 1113 []).
Definition check_content_range : M unit :=
  when (present j "Content-Range" &? pure (negb (status_in [206; 416]%Z))) (say j 1147 []).
(** httpolice/response.py:445-457 *)
Definition cacheability (c : cacheable) : bool :=
  match status_cacheable status, c with
  | Some NotAtAll, NotAtAll | Some NotByDefault, NotByDefault | Some ByDefault, ByDefault => true
  | _, _ => false
  end.
Definition check_from_cache : M unit :=
  when (yesM from_cache)
    (when (absent j "Age") (say j 1166 []) ;;;
     when (cc_bare "no-cache") (say j 1175 []) ;;;
     when (cc_true "no-store") (say j 1176 []) ;;;
     when (pure (cacheability NotAtAll)) (say j 1202 []) ;;;
     when (pure (cacheability NotByDefault) &? absent j "Expires" &? absent j "Cache-Control") (say j 1177 [])).
(** httpolice/response.py:459-466 *)
Definition check_heuristic : M unit :=
  when (yesM heuristic_expiration)
    (when (compare is_gt j "Age" (VInt (24 * 60 * 60)) &? notM (has_item j "Warning" (warn "113"))) (say j 1180 []) ;;;
     ifM (present j "Expires") (say j 1181 []) (when (notM (cc_none "max-age")) (say j 1182 []))).
(** httpolice/response.py:468-472 *)
Definition check_stale : M unit :=
  when (yesM stale)
    (when (notM (has_item j "Warning" (warn "110"))) (say j 1186 []) ;;; when (cc_true "must-revalidate") (say j 1187 [])).
(** httpolice/response.py:474-481.  [expires.value <= headers.date] is
    [headers.date >= expires.value]. *)
Definition check_immutable : M unit :=
  when (cc_true "immutable")
    (when ((absent j "Expires" |? (v <- value j "Expires" ;; compare is_ge j "Date" v)) &? notM (cc_true "max-age")) (say j 1301 []) ;;;
     when (pure (says_no tls)) (say j 1302 []) ;;;
     when (yesM delimited_by_close) (say j 1303 [])).
(** httpolice/response.py:483-487 *)
Definition check_allow : M unit :=
  when (present j "Allow")
    (when (present j "Accept-Patch" &? notM (has_item j "Allow" (const "Method" "PATCH"))) (say j 1217 []) ;;;
     when (present j "Accept-Post" &? notM (has_item j "Allow" (const "Method" "POST"))) (say j 1310 [])).
(** httpolice/response.py:489-490 *)
Definition check_via_missing : M unit := when (transformed_by_proxy j &? absent j "Via") (say j 1046 []).

Definition early : bool := status_in [103]%Z.
Definition response_checks : list (M unit) :=
  [silence_itself] ++ message_checks j tls ++
  [check_reason; check_status_range; check_close_option; check_response_headers; check_switching; check_no_content_body;
   check_reset_content_body; check_location_missing; check_odd_status; check_allow_missing; check_timeout_close; check_date_missing;
   check_created_fragment; check_last_modified; check_304_headers; check_partial_content; check_response_directives;
   check_pragma_no_cache; check_blocked_by; check_disposition; check_alt_svc; check_sts; check_accept_patch; check_response_pairs;
   check_overridden; check_vary_host; check_challenge_missing; check_proxy_challenge_missing; check_challenges] ++
  (if early then [] else
  [check_no_body_status; check_informational_close; check_informational_metadata; check_location_useless; check_retry_after;
   check_content_range; check_from_cache; check_heuristic; check_stale; check_immutable; check_allow; check_via_missing]).
Definition check_response_itself : M unit := seq response_checks.

(** ** [check_response_in_context] (httpolice/response.py:493-795), one by one *)

Section Context.
Variable q : request.
Let jq := of_request q.
Let method := q_method q.
Definition by_method (l : list string) : bool := one_of_strs method l.
Definition qname (name : str) : str * carg := (s "header", CHeader Req name).

(** httpolice/response.py:494-496 *)
Definition silence_from_request : M unit :=
  l <- items jq "HTTPolice-Silence" ;; ids <- silence_ids truthy_val l ;; silence j ids.
(** httpolice/response.py:502-504 *)
Definition check_untyped : M unit :=
  when (pure (truthy_val body) &? absent j "Content-Type" &? (pure (negb (status_in [206]%Z)) |? absent jq "If-Range")) (say j 1041 []).
(** httpolice/response.py:506-512 *)
Definition check_connect : M unit :=
  if by_method ["CONNECT"] && successful status then
    when (present j "Transfer-Encoding") (say j 1019 []) ;;;
    when (present j "Content-Length") (say j 1024 []) ;;;
    when (has_item j "Connection" (VStr (s "close"))) (say j 1199 [])
  else ret tt.
(** httpolice/response.py:514-518 *)
Definition check_head_body : M unit := when (pure (by_method ["HEAD"] && truthy_val body)) (say j 1239 []).
Definition check_te_to_http10 : M unit :=
  when (pure (version_in (m_version (q_msg q)) ["HTTP/1.0"]) &? present j "Transfer-Encoding") (say j 1306 []).
(** httpolice/response.py:520-523 *)
Definition check_bad_host : M unit :=
  when (pure (version_in (m_version (q_msg q)) ["HTTP/1.1"]) &?
        (notM (okayM jq "Host") |? pure (Nat.ltb 1 (List.length (enumerate (m_entries (q_msg q)) (s "Host"))))) &?
        pure (successful status || redirection status))
    (say j 1033 []).
(** httpolice/response.py:525-530 *)
Definition check_proxy_transformed : M unit :=
  when (transformed_by_proxy j &? (b <- is_to_proxy q ;; ret (says_no b))) (say j 1237 []).
Definition check_proxy_via : M unit :=
  when ((b <- is_to_proxy q ;; ret (says_yes b)) &? pure (successful status) &? absent j "Via") (say j 1046 []).
(** httpolice/response.py:532-542 *)
Definition check_switched : M unit :=
  if status_in [101]%Z then
    l <- items j "Upgrade" ;;
    for_each l (fun protocol =>
      ifM (notM (has_item jq "Upgrade" protocol)) (say j 1049 [])
        (i <- field "item" protocol ;;
         when (pure (veq i (const "UpgradeToken" "h2c")) &? notM (okayM jq "HTTP2-Settings")) (say j 1232 []))) ;;;
    when (pure (version_in (m_version (q_msg q)) ["HTTP/1.0"])) (say j 1051 [])
  else when (pure (informational status && version_in (m_version (q_msg q)) ["HTTP/1.0"])) (say j 1071 []).
(** [req.effective_uri == urljoin(req.effective_uri, value)], if the header and
    the URI are there. *)
Definition same_uri (name : string) : M bool :=
  okayM j name &?
  (u <- effective_uri q ;;
   match u with
   | None | Some [] => ret false
   | Some u => v <- value j name ;; join <- ask e_join ;; r <- result_of (join u (text_of v)) ;; ret (str_eqb u r)
   end).
(** httpolice/response.py:544-553 *)
Definition check_content_location : M unit :=
  when (same_uri "Content-Location")
    (when (pure (by_method ["GET"; "HEAD"] && status_in [200; 203; 204; 206; 304]%Z)) (say j 1055 []) ;;;
     when (pure (by_method ["DELETE"])) (say j 1060 [])).
(** httpolice/response.py:555-563 *)
Definition scheme_given : bool := match q_scheme q with Some (_ :: _) => true | _ => false end.
Definition check_self_redirect : M unit :=
  when (okayM j "Location" &? (u <- effective_uri q ;; ret (match u with Some (_ :: _) => true | _ => false end)) &?
        pure scheme_given &? same_uri "Location")
    (when (pure (status_in [300; 307; 308]%Z)) (say j 1085 []) ;;;
     when (pure (status_in [301; 302; 303]%Z && negb (by_method ["POST"]))) (say j 1085 [])).
(** httpolice/response.py:565-567 *)
Definition check_partial_put : M unit :=
  when (pure (by_method ["PUT"]) &? present jq "Content-Range" &? pure (successful status)) (say j 1058 []).
(** httpolice/response.py:569-575 *)
Definition check_safe_method : M unit :=
  if says_yes (method_flag mk_safe method) then
    if status_in [201]%Z then say j 1072 [] else if status_in [202]%Z then say j 1074 []
    else if status_in [409]%Z then say j 1095 [] else ret tt
  else ret tt.
(** httpolice/response.py:577-579 *)
Definition check_created_location : M unit :=
  when (pure (status_in [201]%Z && by_method ["POST"]) &? absent j "Location") (say j 1073 []).
(** httpolice/response.py:581-605 *)
Definition check_empty_body : M unit :=
  if negb (by_method ["HEAD"]) && is_empty body then
    if status_in [202]%Z then say j 1284 [] else if status_in [300]%Z then say j 1077 []
    else if status_in [303]%Z then say j 1081 [] else if status_in [406]%Z then say j 1092 []
    else if status_in [409]%Z then say j 1096 [] else if status_in [428]%Z then say j 1201 []
    else if status_in [429]%Z then say j 1203 [] else if status_in [451]%Z then say j 1242 []
    else if client_error status then say j 1087 [] else if status_in [505]%Z then say j 1106 []
    else if status_in [511]%Z then say j 1204 [] else if server_error status then say j 1104 [] else ret tt
  else ret tt.
(** httpolice/response.py:607-610 *)
Definition check_asterisk_redirect : M unit :=
  when (pure (by_method ["OPTIONS"]) &? (f <- target_form q ;; ret (form_is f ["asterisk-form"])) &? pure (status_in [300; 301; 302; 307; 308]%Z))
    (say j 1086 []).
(** [clearly(..) == {k}]. *)
Definition is_just (l : list str) (k : string) : bool := match l with [] => false | _ => forallb (fun x => among x [k]) l end.
(** httpolice/response.py:612-622 *)
Definition check_not_acceptable : M unit :=
  if status_in [406]%Z then
    match clearly jq hk_proactive_conneg with
    | [] => say j 1090 []
    | l => when (pure (is_just l "Accept-Language")) (say j 1117 [])
    end
  else ret tt.
(** httpolice/response.py:624-625 *)
Definition check_length_required : M unit := when (pure (status_in [411]%Z) &? okayM jq "Content-Length") (say j 1097 []).
(** httpolice/response.py:627-636 *)
Definition check_no_request_body : M unit :=
  if is_empty (m_body (q_msg q)) then
    when (pure (status_in [413]%Z)) (say j 1098 []) ;;; when (pure (status_in [415]%Z) &? absent jq "Content-Type") (say j 1099 [])
  else ret tt.
(** httpolice/response.py:638-639 *)
Definition check_expectation : M unit := when (pure (status_in [417]%Z) &? absent jq "Expect") (say j 1100 []).
(** httpolice/response.py:641-647: the loop ends at the first protocol that the
    request has, too. *)
Fixpoint first_common (l : list val) : M unit :=
  match l with
  | [] => ret tt
  | protocol :: l' =>
      ifM (has_item jq "Upgrade" protocol)
        (if status_in [426]%Z then say j 1102 [(s "protocol", CVal protocol)]
         else if successful status then say j 1103 [(s "protocol", CVal protocol)] else ret tt)
        (first_common l')
  end.
Definition check_common_upgrade : M unit := l <- items j "Upgrade" ;; first_common l.
(** httpolice/response.py:649-650 *)
Definition check_upgrade_required : M unit := when (pure (status_in [426]%Z) &? notM (truth j "Upgrade")) (say j 1101 []).
(** httpolice/response.py:652-654 *)
Definition same_version : bool :=
  match version, m_version (q_msg q) with Some (c :: x), Some y => str_eqb (c :: x) y | _, _ => false end.
Definition check_version_refused : M unit := when (pure (status_in [505]%Z && same_version)) (say j 1105 []).
(** httpolice/response.py:656-661 *)
Definition method_allowed : M bool := has_item j "Allow" (VObj (s "Method") [VStr method]).
Definition check_allowed : M unit :=
  if status_in [405]%Z then when method_allowed (say j 1114 [])
  else if successful status then when (present j "Allow" &? notM method_allowed) (say j 1115 [])
  else ret tt.
(** [weak_equiv], [strong_equiv] (httpolice/structure.py:308-315). *)
Definition weak_equiv (a b : val) : M bool := x <- field "opaque_tag" a ;; y <- field "opaque_tag" b ;; ret (veq x y).
Definition strong_equiv (a b : val) : M bool :=
  (w <- field "weak" a ;; ret (negb (truthy_val w))) &? (w <- field "weak" b ;; ret (negb (truthy_val w))) &? weak_equiv a b.
(** httpolice/response.py:663-675 *)
Definition check_not_modified_needed : M unit :=
  if by_method ["GET"; "HEAD"] && successful status then
    ifM (okayM j "ETag")
      (ifM (is_equal jq "If-None-Match" (VStr (s "*"))) (say j 1121 [])
         (when (l <- items jq "If-None-Match" ;; anyM (fun tag => e <- value j "ETag" ;; weak_equiv tag e) l) (say j 1121 [])))
      (when (v <- value j "Last-Modified" ;; compare is_ge jq "If-Modified-Since" v) (say j 1123 []))
  else ret tt.
(** httpolice/response.py:677-695 *)
Definition check_no_precondition : M unit :=
  if status_in [304; 412]%Z then
    if negb (by_method ["GET"; "HEAD"]) && status_in [304]%Z then say j 1124 []
    else
      match clearly jq hk_precondition with
      | [] => say j 1125 []
      | l =>
          if is_just l "If-Modified-Since" then when (pure (negb (by_method ["GET"; "HEAD"]))) (say j 1128 [])
          else when (pure (forallb (fun x => among x ["If-Match"; "If-None-Match"; "If-Modified-Since"; "If-Unmodified-Since"; "If-Range"]) l &&
                           by_method ["CONNECT"; "OPTIONS"; "TRACE"])) (say j 1129 [])
      end
  else ret tt.
(** httpolice/response.py:697-718 *)
Definition bytes_range : M bool := okayM jq "Range" &? (u <- attr_of jq "Range" "unit" ;; ret (veq u (const "RangeUnit" "bytes"))).
Definition size_of (v : val) : M nat :=
  match v with VList l => ret (List.length l) | VStr x => ret (List.length x) | _ => raise Mistake end.
Definition check_partial_range : M unit :=
  if status_in [206]%Z then ifM (absent jq "Range") (say j 1136 []) (when (pure (negb (by_method ["GET"]))) (say j 1137 [])) else ret tt.
Definition check_single_range : M unit :=
  when (pure (status_in [206]%Z) &? is_equal j "Content-Type" (const "MediaType" "multipart/byteranges") &? bytes_range &?
        (r <- attr_of jq "Range" "ranges" ;; k <- size_of r ;; ret (Nat.eqb k 1)))
    (say j 1144 []).
Definition check_if_range_tag : M unit :=
  when (pure (status_in [206]%Z) &? (v <- value jq "If-Range" ;; ret (is_tag v)) &? okayM j "ETag" &?
        (v <- value jq "If-Range" ;; e <- value j "ETag" ;; notM (strong_equiv e v)))
    (say j 1145 []).
Definition check_if_range_metadata : M unit :=
  when (pure (status_in [206]%Z) &? present jq "If-Range")
    (for_each (header_names j) (fun name =>
       when (pure (flag_of hk_representation_metadata name && negb (among name ["ETag"; "Content-Location"]))) (say j 1146 [rname name]))).
(** httpolice/response.py:720-726 *)
Definition check_range_refused : M unit :=
  if status_in [416]%Z then
    when (absent jq "Range") (say j 1149 []) ;;; when (bytes_range &? absent j "Content-Range") (say j 1150 [])
  else ret tt.
(** httpolice/response.py:728-737 *)
Definition qcc (key : string) : M val := directive_of jq "Cache-Control" key.
Definition check_cache_in_context : M unit :=
  when (yesM from_cache)
    (when (pure (says_no (method_flag mk_cacheable method))) (say j 1172 []) ;;;
     when (v <- qcc "max-age" ;; compare is_gt j "Age" v) (say j 1170 []) ;;;
     ifM (v <- qcc "no-cache" ;; ret (truthy_val v)) (say j 1173 [])
       (when (absent jq "Cache-Control" &? has_item jq "Pragma" (VStr (s "no-cache"))) (say j 1174 []))).
(** httpolice/response.py:739-746 *)
Definition check_stale_in_context : M unit :=
  when (yesM stale &? notM (has_item j "Warning" (warn "111")) &? notM (has_item j "Warning" (warn "112")) &?
        (v <- qcc "max-stale" ;; ret (is_none v)) &? (v <- qcc "stale-if-error" ;; ret (is_none v)) &?
        cc_none "stale-if-error" &? cc_none "stale-while-revalidate")
    (say j 1188 []).
(** httpolice/response.py:748-752 *)
Definition check_precondition_required : M unit :=
  if status_in [428]%Z then
    match clearly jq hk_precondition with [] => ret tt | name :: _ => say j 1200 [qname name] end
  else ret tt.
(** httpolice/response.py:754-761 *)
Definition check_patch_response : M unit :=
  if by_method ["PATCH"] then
    when (pure (successful status) &? okayM jq "Content-Type" &?
          (i <- attr_of jq "Content-Type" "item" ;; ret (says_no (media_patch (text_of i)))))
      (say j 1214 []) ;;;
    when (pure (status_in [415]%Z) &? absent j "Accept-Patch") (say j 1215 [])
  else ret tt.
(** httpolice/response.py:763-765 *)
Definition check_sts_over_http : M unit := when (present j sts &? pure (says_no (scheme_tls (q_scheme q)))) (say j 1221 []).
(** httpolice/response.py:767-770 *)
Definition check_misdirected : M unit :=
  when (pure (status_in [421]%Z && says_yes (method_flag mk_cacheable method)) &? notM (cc_true "no-store")) (say j 1283 []).
(** httpolice/response.py:772-776.  [str()] of the argument is kept as the
    argument. *)
Definition check_applied : M unit :=
  l <- items j "Preference-Applied" ;;
  for_each l (fun a =>
    ps <- without_params jq ;;
    when (pure (negb (mem_val a ps)))
      (i <- field "item" a ;; x <- field "param" a ;;
       say j 1286 [(s "name", CVal i); (s "value", CVal (if is_none x then VStr [] else VTuple [VStr (s "="); x]))])).
(** httpolice/response.py:786-795 *)
Definition check_options_patch : M unit :=
  when (pure (by_method ["OPTIONS"]) &? has_item j "Allow" (const "Method" "PATCH") &? absent j "Accept-Patch") (say j 1216 []).
Definition check_vary_prefer : M unit :=
  when (present j "Preference-Applied" &? pure (by_method ["GET"]) &? is_unequal j "Vary" (VStr (s "*")) &?
        notM (has_item j "Vary" (const "FieldName" "Prefer")))
    (say j 1291 []).

Definition context_checks : list (M unit) :=
  [silence_from_request; check_untyped; check_connect; check_head_body; check_te_to_http10; check_bad_host; check_proxy_transformed;
   check_proxy_via; check_switched; check_content_location; check_self_redirect; check_partial_put; check_safe_method;
   check_created_location; check_empty_body; check_asterisk_redirect; check_not_acceptable; check_length_required;
   check_no_request_body; check_expectation; check_common_upgrade; check_upgrade_required; check_version_refused; check_allowed;
   check_not_modified_needed; check_no_precondition; check_partial_range; check_single_range; check_if_range_tag;
   check_if_range_metadata; check_range_refused; check_cache_in_context; check_stale_in_context; check_precondition_required;
   check_patch_response; check_sts_over_http; check_misdirected; check_applied] ++
  (if early then [] else [check_options_patch; check_vary_prefer]).
Definition check_response_in_context : M unit := seq context_checks.
End Context.

(** [check_response] (httpolice/response.py:218-222). *)
Definition check_response : M unit :=
  check_response_itself ;;; match req with Some q => check_response_in_context q | None => ret tt end.
End Response.

(** ** Exchanges *)

(** [check_responses] (httpolice/response.py:207-215): [final] is the number of
    the first response that is not informational, among those before. *)
Fixpoint check_responses_from (req : option request) (n : nat) (final : option nat) (l : list response) : M unit :=
  match l with
  | [] => ret tt
  | p :: l' =>
      (match final with
       | Some f => complain (Resp n) 1304 [(s "previous", CResponse f)]
       | None => ret tt
       end) ;;;
      check_response n p req ;;;
      check_responses_from req (S n) (match final with Some f => Some f | None => if informational (p_status p) then None else Some n end) l'
  end.

(** The last loop of [check_exchange] (httpolice/exchange.py:66-71). *)
Fixpoint check_continue (expect : bool) (n : nat) (l : list response) : M unit :=
  match l with
  | [] => ret tt
  | p :: l' =>
      let expect' := expect && negb (p_status p =? 100)%Z in
      (if expect' && (p_status p =? 101)%Z then complain (Resp n) 1305 [] else ret tt) ;;;
      check_continue expect' (S n) l'
  end.

(** [Exchange] (httpolice/exchange.py:19-36). *)
Record exchange := Exchange { x_request : option request; x_responses : list response }.
(** [check_exchange] (httpolice/exchange.py:58-71). *)
Definition check_exchange (x : exchange) : M unit :=
  expect <- (match x_request x with
             | Some q => check_request q ;;; is_equal (of_request q) "Expect" (VStr (s "100-continue"))
             | None => ret false
             end) ;;
  check_responses_from (x_request x) 0 None (x_responses x) ;;;
  check_continue expect 0 (x_responses x).
