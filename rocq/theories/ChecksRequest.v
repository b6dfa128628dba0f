(** Checks of requests (httpolice/request.py). *)
From Coq Require Import ZifyBool ZifyNat ZifyN String.
From Verif Require Import Base Earley Grammar Syntax Actions Text Structure Known Tables Header Values ChecksBase ChecksMessage.
Open Scope nat_scope.
Open Scope list_scope.
Unset Strict Implicit.
Local Open Scope string_scope.
Local Open Scope list_scope.

(** httpolice/request.py:21-23 *)
Definition normal_target : symbol := alt (mark (s "origin-form") origin_form) (mark (s "absolute-form") absolute_form).
Definition options_target : symbol :=
  alt (alt (mark (s "origin-form") origin_form) (mark (s "asterisk-form") asterisk_form)) (mark (s "absolute-form") absolute_form).
Definition connect_target : symbol := mark (s "authority-form") authority_form.

(** ** Derived properties *)

(** The symbol that a request target is parsed as (httpolice/request.py:117-122). *)
Definition target_symbol (method : str) : symbol :=
  if str_eqb method (s "CONNECT") then connect_target
  else if str_eqb method (s "OPTIONS") then options_target
  else normal_target.
(** [target_form] (httpolice/request.py:115-128): the name of the symbol, or
    [None] when the target was not parsed. *)
Definition target_form (q : request) : M (option str) :=
  r <- parse_text (of_request q) (target_symbol (q_method q)) (q_target q) 1045 [(s "place", CVal (VStr (s "request target")))] ;;
  if okay_value r then
    p <- some_of (unpack2 r) ;;
    match fst p with VStr x => ret (Some x) | _ => raise Mistake end
  else ret None.
Definition form_is (form : option str) (l : list string) : bool := version_in form l.

(** [effective_uri] (httpolice/request.py:130-155). *)
Definition effective_uri (q : request) : M (option str) :=
  form <- target_form q ;;
  if form_is form ["absolute-form"] then ret (Some (q_target q))
  else
    match q_scheme q with
    | None | Some [] => ret None
    | Some scheme =>
        authority <- (if form_is form ["authority-form"] then ret (Some (q_target q))
                      else v <- value (of_request q) "Host" ;;
                           if okay_value v then
                             x <- some_of match str_like v with Some (Plain x) | Some (CI x) => Some x | None => None end ;; ret (Some x)
                           else ret None) ;;
        match authority with
        | None => ret None
        | Some a =>
            if form_is form ["authority-form"; "asterisk-form"] then ret (Some (scheme ++ s "://" ++ a))
            else if form_is form ["origin-form"] then ret (Some (scheme ++ s "://" ++ a ++ q_target q))
            else ret None
        end
    end.

(** [is_to_proxy] (httpolice/request.py:165-177). *)
Definition is_to_proxy (q : request) : M (option bool) :=
  if version_in (m_version (q_msg q)) ["HTTP/1.0"; "HTTP/1.1"] then
    form <- target_form q ;;
    if form_is form ["absolute-form"] then say (of_request q) 1236 [] ;;; ret (Some true) else ret (Some false)
  else ret None.

(** [query_params] (httpolice/request.py:179-185): its keys. *)
Definition query_params (q : request) : M (list str) :=
  u <- effective_uri q ;;
  match u with
  | None => ret []
  | Some u =>
      url <- ask e_url ;;
      p <- result_of (url u) ;;
      qs <- ask e_qs ;;
      result_of (qs (snd (fst p)))
  end.

(** [has_body] (httpolice/request.py:187-198). *)
Definition has_body (q : request) : M (option bool) :=
  if truthy_val (m_body (q_msg q)) then ret (Some true)
  else if version_in (m_version (q_msg q)) ["HTTP/1.0"; "HTTP/1.1"] then
    b <- (present (of_request q) "Content-Length" |? present (of_request q) "Transfer-Encoding") ;; ret (Some b)
  else ret None.

(** [str.upper] on ASCII. *)
Definition upper (x : str) : str := map upper1 x.
(** [_is_urlsafe_base64] (httpolice/request.py:454-456). *)
Definition is_urlsafe (c : N) : bool := is_letter c || Text.is_digit c || (c =? 45)%N || (c =? 95)%N.
(** [_accept_subsumptions] (httpolice/request.py:434-451): normalized items. *)
Definition normalize (v : val) : M (val * val) :=
  p <- some_of (unpack2 v) ;;
  let (item, q) := p : val * val in
  item' <- (match item with VObj c [i; _] => if str_eqb c (s "Parametrized") then ret i else ret item | _ => ret item end) ;;
  q' <- (match q with
         | VNone => ret (VFloat (s "1.0"))
         | VObj c _ => if str_eqb c (s "MultiDict") then dict_get q (VStr (s "q")) (VFloat (s "1.0")) else ret q
         | _ => ret q
         end) ;;
  ret (item', q').
(** [itertools.permutations(l, 2)]. *)
Definition ordered_pairs {A} (l : list A) : list (A * A) :=
  flat_map (fun x => map (fun y => (snd x, snd y)) (filter (fun y => negb (Nat.eqb (fst x) (fst y))) (number 0 l))) (number 0 l).
(** [item.endswith(suffix)]. *)
Definition str_endswith (v : val) (suffix : str) : M bool :=
  match str_like v with
  | Some (Plain x) => ret (ends_with x suffix)
  | Some (CI x) => ret (ci_endswith x suffix)
  | None => raise Mistake
  end.
Definition subsumes (x y : val * val) : M bool :=
  (pure (veq (fst x) (VStr (s "*"))) |? str_endswith (fst x) (s "/*")) &?
  (f <- ask e_fnmatch ;; ret (f (text_of (fst y)) (text_of (fst x)))) &?
  (f <- ask e_fnmatch ;; ret (negb (f (text_of (fst x)) (text_of (fst y))))) &?
  pure (veq (snd x) (snd y)).
Fixpoint first_subsumption (l : list ((val * val) * (val * val))) : M (option (val * val)) :=
  match l with
  | [] => ret None
  | (x, y) :: l' => ifM (subsumes x y) (ret (Some (fst x, fst y))) (first_subsumption l')
  end.

(** ** The checks (httpolice/request.py:201-405), one by one *)

Section Request.
Variable q : request.
Let j := of_request q.
Let method := q_method q.
Let version := m_version (q_msg q).
Let body := m_body (q_msg q).
Let tls := scheme_tls (q_scheme q).
Definition method_in (l : list string) : bool := one_of_strs method l.
Definition harg (name : string) : str * carg := (s "header", CHeader Req (s name)).

(** httpolice/request.py:209-211 *)
Definition silence_ids (keep : val -> bool) (l : list val) : M (list N) :=
  ids <- mapM (fun v => p <- some_of (unpack2 v) ;; match fst p with VInt z => ret (Z.to_N z, keep (snd p)) | _ => raise Mistake end) l ;;
  ret (map fst (filter snd ids)).
Definition silence_own : M unit :=
  l <- items j "HTTPolice-Silence" ;; ids <- silence_ids (fun v => negb (truthy_val v)) l ;; silence j ids.
(** httpolice/request.py:215-217 *)
Definition check_request_line : M unit :=
  _ <- parse_text j Syntax.method method 1292 [(s "place", CVal (VStr (s "request method")))] ;; _ <- target_form q ;; ret tt.
(** httpolice/request.py:219-220 *)
Definition check_uppercase : M unit :=
  when (pure (negb (str_eqb method (upper method)) && is_method (upper method)))
    (say j 1295 [(s "uppercase", CVal (VObj (s "Method") [VStr (upper method)]))]).
(** httpolice/request.py:222-223 *)
Definition check_untyped_body : M unit := when (pure (truthy_val body) &? absent j "Content-Type") (say j 1041 []).
(** httpolice/request.py:225-228 *)
Definition check_length_needed : M unit :=
  when (pure (version_in version ["HTTP/1.0"; "HTTP/1.1"]) &? pure (says_yes (method_flag mk_defines_body method)) &?
        absent j "Content-Length" &? absent j "Transfer-Encoding")
    (say j 1021 []).
(** httpolice/request.py:230-232 *)
Definition is_empty (v : val) : bool := match v with VBytes [] => true | _ => false end.
Definition check_length_useless : M unit :=
  when (pure (says_no (method_flag mk_defines_body method)) &? pure (is_empty body) &? present j "Content-Length") (say j 1022 []).
(** httpolice/request.py:234-235 *)
Definition check_te_chunked : M unit := when (has_item j "TE" (const "TransferCoding" "chunked")) (say j 1028 []).
(** httpolice/request.py:237-238 *)
Definition check_te_http2 : M unit :=
  when (pure (version_in version ["HTTP/2"]) &? truth j "TE" &? is_unequal j "TE" (VList [VStr (s "trailers")])) (say j 1244 [harg "TE"]).
(** httpolice/request.py:239-240 *)
Definition check_te_connection : M unit :=
  when (pure (version_in version ["HTTP/1.1"]) &? truth j "TE" &? notM (has_item j "Connection" (VStr (s "TE")))) (say j 1029 []).
(** httpolice/request.py:242-243 *)
Definition check_host_missing : M unit := when (pure (version_in version ["HTTP/1.1"]) &? absent j "Host") (say j 1031 []).
(** httpolice/request.py:244-245 *)
Definition check_host_first : M unit :=
  when (present j "Host" &?
        (e <- some_of (hd_error (header_entries (m_entries (q_msg q)))) ;; ret (negb (among (e_name e) ["Host"]))))
    (say j 1032 []).
(** httpolice/request.py:247-252 *)
Definition check_request_headers : M unit :=
  for_each (header_names j) (fun name =>
    if says_no (header_flag hk_for_request name) then say j 1063 [(s "header", CHeader Req name)]
    else when (pure (flag_of hk_representation_metadata name) &? (b <- has_body q ;; ret (says_no b))) (say j 1053 [(s "header", CHeader Req name)])).
(** httpolice/request.py:254-262 *)
Definition check_unexpected_body : M unit :=
  if truthy_val body then
    if method_in ["GET"] then say j 1056 [] else if method_in ["HEAD"] then say j 1057 []
    else if method_in ["DELETE"] then say j 1059 [] else if method_in ["CONNECT"] then say j 1061 [] else ret tt
  else ret tt.
(** httpolice/request.py:264-265 *)
Definition check_options_body : M unit :=
  when (pure (method_in ["OPTIONS"]) &? pure (truthy_val body) &? absent j "Content-Type") (say j 1062 []).
(** httpolice/request.py:267-268 *)
Definition check_expect : M unit :=
  when (is_equal j "Expect" (VStr (s "100-continue")) &? (b <- has_body q ;; ret (says_no b))) (say j 1066 []).
(** httpolice/request.py:270-271 *)
Definition check_max_forwards : M unit :=
  when (present j "Max-Forwards" &? pure (negb (method_in ["OPTIONS"; "TRACE"]))) (say j 1067 []).
(** httpolice/request.py:273-277 *)
Definition check_referer : M unit :=
  when (okayM j "Referer" &? pure (says_no tls))
    (v <- value j "Referer" ;; url <- ask e_url ;; p <- result_of (url (text_of v)) ;;
     when (pure (str_eqb (fst (fst p)) (s "https"))) (say j 1068 [])).
(** httpolice/request.py:279-285 *)
Definition is_versioned (v : val) : bool := match v with VObj c _ => str_eqb c (s "Versioned") | _ => false end.
Definition check_user_agent : M unit :=
  ifM (absent j "User-Agent") (say j 1070 [])
    (when (okayM j "User-Agent")
       (l <- items j "User-Agent" ;;
        match filter is_versioned l with
        | [] => ret tt
        | p :: ps =>
            when (allM (fun p => i <- field "item" p ;; ret (is_library (text_of i))) (p :: ps)) (say j 1093 [(s "library", CVal p)])
        end)).
(** httpolice/request.py:287-289 *)
Definition check_accept_encoding : M unit :=
  l <- items j "Accept-Encoding" ;;
  for_each l (fun x =>
    i <- field "item" x ;;
    when (pure (veq (const "ContentCoding" "x-gzip") i || veq (const "ContentCoding" "x-compress") i) &?
          (p <- field "param" x ;; ret (negb (is_none p))))
      (say j 1116 [(s "coding", CVal i)])).
(** httpolice/request.py:291-292 *)
Definition check_if_match : M unit :=
  when (is_unequal j "If-Match" (VStr (s "*")) &?
        (l <- items j "If-Match" ;; anyM (fun tag => w <- field "weak" tag ;; ret (truthy_val w)) l))
    (say j 1120 []).
(** httpolice/request.py:294-297 *)
Definition check_head_preconditions : M unit :=
  if method_in ["HEAD"] then
    for_each (header_names j) (fun name => when (pure (flag_of hk_precondition name)) (say j 1131 [(s "header", CHeader Req name)]))
  else ret tt.
(** httpolice/request.py:299-306 *)
Definition check_preconditions : M unit :=
  if method_in ["CONNECT"; "OPTIONS"; "TRACE"] then
    for_each (header_names j) (fun name =>
      when (pure (among name ["If-Modified-Since"; "If-Unmodified-Since"; "If-Match"; "If-None-Match"; "If-Range"])) (say j 1130 [(s "header", CHeader Req name)]))
  else if negb (method_in ["GET"; "HEAD"]) then when (present j "If-Modified-Since") (say j 1122 [])
  else ret tt.
(** httpolice/request.py:308-309 *)
Definition check_range : M unit := when (present j "Range" &? pure (negb (method_in ["GET"]))) (say j 1132 []).
(** httpolice/request.py:311-312 *)
Definition check_if_range : M unit := when (present j "If-Range" &? absent j "Range") (say j 1134 []).
(** httpolice/request.py:314-315 *)
Definition is_tag (v : val) : bool := match v with VObj c _ => str_eqb c (s "EntityTag") | _ => false end.
Definition check_if_range_weak : M unit :=
  when ((v <- value j "If-Range" ;; ret (is_tag v)) &? (w <- attr_of j "If-Range" "weak" ;; ret (truthy_val w))) (say j 1135 []).
(** httpolice/request.py:317-321 *)
Definition check_cache_directives : M unit :=
  l <- items j "Cache-Control" ;;
  for_each l (fun d =>
    i <- field "item" d ;;
    when (pure (says_no (directive_flag ak_for_request (text_of i)))) (say j 1152 [(s "directive", CVal i)]) ;;;
    when (pure (veq d (const "CacheDirective" "no-cache")) &? (p <- field "param" d ;; ret (negb (is_none p)))) (say j 1159 [(s "directive", CVal i)])).
(** httpolice/request.py:323-324 *)
Definition has_directive (key : string) : M bool := v <- directive_of j "Cache-Control" key ;; ret (truthy_val v).
Definition check_no_cache_pragma : M unit :=
  when (has_directive "no-cache" &? notM (has_item j "Pragma" (VStr (s "no-cache")))) (say j 1161 []).
(** httpolice/request.py:326-328 *)
Definition check_request_warnings : M unit :=
  l <- items j "Warning" ;;
  for_each l (fun w => code <- field "code" w ;; when (code_between 100 199 code) (say j 1165 [(s "code", CVal code)])).
(** httpolice/request.py:330-335 *)
Definition check_uncacheable_method : M unit :=
  if says_no (method_flag mk_cacheable method) then
    l <- items j "Cache-Control" ;;
    for_each l (fun d =>
      i <- field "item" d ;;
      when (pure (existsb (fun k => veq (const "CacheDirective" k) i) ["max-age"; "max-stale"; "min-fresh"; "no-cache"; "no-store"; "only-if-cached"]))
        (say j 1171 [(s "directive", CVal d)]))
  else ret tt.
(** httpolice/request.py:337-342 *)
Definition conflicting (l : list (string * string)) : M unit :=
  for_each l (fun d =>
    when (has_directive (fst d) &? has_directive (snd d))
      (say j 1193 [(s "directive1", CVal (const "CacheDirective" (fst d))); (s "directive2", CVal (const "CacheDirective" (snd d)))])).
Definition check_directive_pairs : M unit :=
  conflicting [("max-stale", "min-fresh"); ("stale-if-error", "min-fresh"); ("max-stale", "no-cache"); ("max-age", "no-cache")].
(** [_check_basic_auth] (httpolice/request.py:408-424); [hex()] of an octet;
    [CTL] (httpolice/syntax/common.py:9). *)
Definition hex (c : N) : str := if (c <? 16)%N then [48; 120; hex_c c]%N else show_hex c.
Definition is_ctl (c : N) : bool := ((c <=? 31) || (c =? 127))%N.
Definition check_basic_auth (name : string) (credentials : val) : M unit :=
  if is_str credentials then
    decode <- ask e_base64 ;;
    match decode (text_of credentials) with
    | None => say j 1210 [harg name; (s "error", CError)]
    | Some x =>
        when (pure (negb (existsb (N.eqb 58) x))) (say j 1211 [harg name]) ;;;
        for_each x (fun c => when (pure (is_ctl c)) (say j 1212 [harg name; (s "char", CVal (VStr (hex c)))]))
    end
  else say j 1209 [harg name].
(** [_check_bearer_auth] (httpolice/request.py:427-431). *)
Definition check_bearer_auth (name : string) (credentials : val) : M unit :=
  when (pure (says_no tls)) (say j 1261 [harg name]) ;;;
  when (pure (negb (is_str credentials))) (say j 1262 [harg name]).
(** httpolice/request.py:344-352 *)
Definition check_authorization : M unit :=
  for_each ["Authorization"; "Proxy-Authorization"] (fun name =>
    when (okayM j name)
      (v <- value j name ;;
       p <- some_of (unpack2 v) ;;
       if veq (fst p) (const "AuthScheme" "Basic") then check_basic_auth name (snd p)
       else if veq (fst p) (const "AuthScheme" "Bearer") then check_bearer_auth name (snd p)
       else when (pure (negb (truthy_val (snd p)))) (say j 1274 [harg name]))).
(** httpolice/request.py:354-356 *)
Definition check_patch : M unit :=
  when (pure (method_in ["PATCH"]) &? okayM j "Content-Type")
    (i <- attr_of j "Content-Type" "item" ;; when (pure (says_no (media_patch (text_of i)))) (say j 1213 [])).
(** httpolice/request.py:358-363 *)
Definition check_h2c : M unit :=
  l <- items j "Upgrade" ;;
  for_each l (fun protocol =>
    i <- field "item" protocol ;;
    when (pure (veq i (const "UpgradeToken" "h2c")))
      (when (pure (says_yes tls)) (say j 1233 []) ;;; when (absent j "HTTP2-Settings") (say j 1231 []))).
(** httpolice/request.py:365-366 *)
Definition check_settings_option : M unit :=
  when (truth j "HTTP2-Settings" &? notM (has_item j "Connection" (VStr (s "HTTP2-Settings")))) (say j 1230 []).
(** httpolice/request.py:368-370 *)
Definition check_settings : M unit :=
  when (okayM j "HTTP2-Settings")
    (v <- value j "HTTP2-Settings" ;;
     match v with
     | VStr x => when (pure (negb (forallb is_urlsafe x))) (say j 1234 [])
     | _ => raise Mistake
     end).
(** httpolice/request.py:372-377 *)
Definition has_token (keys : list str) : bool := existsb (str_eqb (s "access_token")) keys.
Definition check_token_in_uri : M unit :=
  when (keys <- query_params q ;; ret (has_token keys))
    (say j 1270 [] ;;;
     when (pure (says_no tls)) (say j 1271 [(s "where", CVal (VStr (q_target q)))]) ;;;
     when (notM (has_directive "no-store")) (say j 1272 [])).
(** httpolice/request.py:379-381 *)
Definition check_token_in_body : M unit :=
  d <- url_encoded_data j ;;
  match d with
  | Some keys =>
      when (pure (has_token keys && says_no tls))
        (b <- displayable_body j ;; say j 1271 [(s "where", CVal (VTuple [fst b; VList (map VStr (snd b))]))])
  | None => ret tt
  end.
(** httpolice/request.py:383-388 *)
Definition check_subsumptions : M unit :=
  for_each ["Accept"; "Accept-Charset"; "Accept-Encoding"; "Accept-Language"] (fun name =>
    l <- items j name ;;
    normalized <- mapM normalize l ;;
    r <- first_subsumption (ordered_pairs normalized) ;;
    match r with
    | Some (w, v) => say j 1276 [harg name; (s "wildcard", CVal w); (s "value", CVal v)]
    | None => ret tt
    end).
(** httpolice/request.py:390-391 *)
Definition check_duplicate_preferences : M unit :=
  l <- items j "Prefer" ;;
  ns <- mapM (fun d => p <- some_of (unpack2 d) ;; n <- some_of (unpack2 (fst p)) ;; ret (fst n)) l ;;
  for_each (duplicates veq ns) (fun n => say j 1285 [(s "name", CVal n)]).
(** httpolice/request.py:393-394 *)
Definition check_respond_async : M unit :=
  when ((v <- preference_of j "respond-async" ;; ret (truthy_val v)) &? pure (says_yes (method_flag mk_safe method))) (say j 1287 []).
(** httpolice/request.py:396-397 *)
Definition check_return_minimal : M unit :=
  when ((v <- preference_of j "return" ;; ret (veq v (VStr (s "minimal")))) &? pure (method_in ["GET"])) (say j 1288 []).
(** httpolice/request.py:399-405 *)
Definition wants (key x : string) : M bool :=
  l <- without_params j ;; ret (existsb (fun v => veq v (VTuple [const "Preference" key; VStr (s x)])) l).
Definition check_return_both : M unit := when (wants "return" "minimal" &? wants "return" "representation") (say j 1289 []).
Definition check_handling_both : M unit := when (wants "handling" "strict" &? wants "handling" "lenient") (say j 1290 []).

(** [check_request] (httpolice/request.py:201-405). *)
Definition request_checks : list (M unit) :=
  [silence_own] ++ message_checks j tls ++
  [check_request_line; check_uppercase; check_untyped_body; check_length_needed; check_length_useless; check_te_chunked; check_te_http2;
   check_te_connection; check_host_missing; check_host_first; check_request_headers; check_unexpected_body; check_options_body;
   check_expect; check_max_forwards; check_referer; check_user_agent; check_accept_encoding; check_if_match; check_head_preconditions;
   check_preconditions; check_range; check_if_range; check_if_range_weak; check_cache_directives; check_no_cache_pragma;
   check_request_warnings; check_uncacheable_method; check_directive_pairs; check_authorization; check_patch; check_h2c;
   check_settings_option; check_settings; check_token_in_uri; check_token_in_body; check_subsumptions; check_duplicate_preferences;
   check_respond_async; check_return_minimal; check_return_both; check_handling_both].
Definition check_request : M unit := seq request_checks.
End Request.
