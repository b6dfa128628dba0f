(** Checks that apply to any message (httpolice/message.py). *)
From Coq Require Import ZifyBool ZifyNat ZifyN String.
From Verif Require Import Base Earley Grammar Syntax Actions Text Structure Known Tables Header Values ChecksBase.
Open Scope nat_scope.
Open Scope list_scope.
Unset Strict Implicit.
Local Open Scope string_scope.
Local Open Scope list_scope.

(** ** Derived properties *)

(** Which decoder a content coding has (httpolice/message.py:78-81). *)
Definition decoder (coding : val) : option (env -> str -> option str) :=
  if veq (const "ContentCoding" "gzip") coding || veq (const "ContentCoding" "x-gzip") coding then Some e_gzip
  else if veq (const "ContentCoding" "deflate") coding then Some e_deflate
  else if veq (const "ContentCoding" "br") coding then Some e_brotli
  else None.
(** The loop of [decoded_body]; [codings] in the order in which they are popped. *)
Fixpoint decode_all (j : subject) (codings : list val) (r : val) : M val :=
  match codings with
  | [] => ret r
  | coding :: rest =>
      match r with
      | VBytes (c :: x) =>
          match decoder coding with
          | Some f =>
              d <- ask f ;;
              match d (c :: x) with
              | Some y => decode_all j rest (VBytes y)
              | None => say j 1037 [(s "coding", CVal coding); (s "error", CError)] ;;; ret (VUnavailable r)
              end
          | None =>
              if okay_value coding then say j 1036 [(s "coding", CVal coding)] ;;; ret (VUnavailable r)
              else ret (VUnavailable r)
          end
      | _ => ret r
      end
  end.
(** [decoded_body] (httpolice/message.py:71-93). *)
Definition decoded_body (j : subject) : M val :=
  match m_decoded (j_msg j) with
  | Some v => ret v
  | None =>
      v <- value j "Content-Encoding" ;;
      match v with
      | VList codings => decode_all j (rev codings) (m_body (j_msg j))
      | _ => raise Mistake
      end
  end.

(** [guessed_charset] (httpolice/message.py:95-112). *)
Definition guessed_charset (j : subject) : M (option str) :=
  charset <- ifM (okayM j "Content-Type")
                 (p <- attr_of j "Content-Type" "param" ;; dict_get p (VStr (s "charset")) (VStr (s "utf-8")))
                 (ret (VStr (s "utf-8"))) ;;
  name <- some_of match str_like charset with Some (Plain x) | Some (CI x) => Some x | None => None end ;;
  codec <- ask e_codec ;;
  match codec name with
  | Refused => ret None
  | Broke => raise FromLibrary
  | Fine cs =>
      b <- decoded_body j ;;
      match b with
      | VBytes x =>
          decode <- ask e_decode ;;
          match decode cs x with
          | Fine _ => ret (Some cs)
          | Refused => ret None
          | Broke => raise FromLibrary
          end
      | VNone | VUnavailable _ => ret (Some cs)
      | _ => raise Mistake
      end
  end.

(** [unicode_body] (httpolice/message.py:114-121). *)
Definition unicode_body (j : subject) : M val :=
  match m_unicode (j_msg j) with
  | Some v => ret v
  | None =>
      b <- decoded_body j ;;
      match b with
      | VBytes x =>
          cs <- guessed_charset j ;;
          match cs with
          | None => ret (VUnavailable b)
          | Some c =>
              decode <- ask e_decode ;;
              match decode c x with Fine t => ret (VStr t) | _ => raise FromLibrary end
          end
      | VNone | VUnavailable _ => ret b
      | _ => raise Mistake
      end
  end.

(** [content_is_full] for requests (httpolice/message.py:123-126) and responses
    (httpolice/response.py:97-109).  It is only used for its truth. *)
Definition content_is_full (j : subject) : M bool :=
  match j_status j with
  | None => ret true
  | Some st =>
      if (st =? 304)%Z || (st =? 103)%Z then ret false
      else
        ifM (pure (st =? 206)%Z &? is_unequal j "Content-Type" (const "MediaType" "multipart/byteranges"))
          (ret false)
          (match j_request j with
           | Some q => ret (negb (str_eqb (q_method q) (s "HEAD")))
           | None => ret (truthy_val (m_body (j_msg j)))
           end)
  end.

(** [headers.content_type.is_okay and f(headers.content_type.item)]. *)
Definition type_is (j : subject) (f : str -> bool) : M bool :=
  okayM j "Content-Type" &? (i <- attr_of j "Content-Type" "item" ;; ret (f (text_of i))).

(** What [json_data] can be: [None], [Unavailable], or data, of which the model
    keeps what [json.dumps] gives. *)
Inductive json_value := JNone | JUnavailable | JValue (dumps : result str).
(** [json_data] (httpolice/message.py:128-142). *)
Definition json_data (j : subject) : M json_value :=
  ifM (type_is j is_json &? (u <- unicode_body j ;; ret (okay_value u)) &? content_is_full j)
    (u <- unicode_body j ;;
     match u with
     | VStr t =>
         json <- ask e_json ;;
         let accept (r : json_value) : M json_value :=
           cs <- guessed_charset j ;;
           (match cs with
            | Some c => when (pure (negb (str_eqb c (s "ascii") || str_eqb c (s "utf-8")))) (say j 1281 [])
            | None => ret tt
            end) ;;; ret r in
         match json t with
         | JsonError => say j 1038 [(s "error", CError)] ;;; ret JUnavailable
         | JsonRaises => raise FromLibrary
         | JsonNull => accept JNone
         | JsonData d => accept (JValue d)
         end
     | _ => raise Mistake
     end)
    (ret JNone).

(** [xml_data] (httpolice/message.py:144-161); the data are not used. *)
Definition xml_data (j : subject) : M unit :=
  when (type_is j is_xml &? (b <- decoded_body j ;; ret (okay_value b)) &? content_is_full j)
    (b <- decoded_body j ;;
     match b with
     | VBytes x =>
         xml <- ask e_xml ;;
         match xml x with
         | XmlFine => ret tt
         | XmlEntities => say j 1275 []
         | XmlError => say j 1039 [(s "error", CError)]
         | XmlRaises => raise FromLibrary
         end
     | _ => raise Mistake
     end).

(** [multipart_data] (httpolice/message.py:163-183): the parts, if it is okay. *)
Definition multipart_data (j : subject) : M (option (list (bool * bool))) :=
  ifM (type_is j is_multipart &? (b <- decoded_body j ;; ret (okay_value b)) &? content_is_full j)
    (v <- view j (s "Content-Type") ;;
     b <- decoded_body j ;;
     match v_entries v, b with
     | (_, e) :: _, VBytes x =>
         parse_email <- ask e_email ;;
         m <- result_of (parse_email (s "Content-Type: " ++ e_value e ++ [13; 10; 13; 10]%N ++ x)) ;;
         for_each (defects m) (fun d =>
           match d with
           | NoBoundary => say j 1139 []
           | NoStart => say j 1140 []
           | OtherDefect => ret tt
           end) ;;;
         ret (parts m)
     | _, _ => raise Mistake
     end)
    (ret None).

(** [URL_ENCODED_GOOD_CHARS] (httpolice/message.py:31-35). *)
Definition url_encoded_good (c : N) : bool :=
  (existsb (N.eqb c) [37; 38; 42; 43; 45; 46; 95] || ((48 <=? c) && (c <? 64)) || ((65 <=? c) && (c <? 91)) || ((97 <=? c) && (c <? 123)))%N.
(** [url_encoded_data] (httpolice/message.py:185-196): its keys, if it is okay. *)
Definition url_encoded_data (j : subject) : M (option (list str)) :=
  ifM (is_equal j "Content-Type" (const "MediaType" "application/x-www-form-urlencoded") &?
       (b <- decoded_body j ;; ret (okay_value b)) &? content_is_full j)
    (b <- decoded_body j ;;
     match b with
     | VBytes x =>
         match find (fun c => negb (url_encoded_good c)) x with
         | Some c => say j 1040 [(s "char", CVal (VStr (format_chars [c])))] ;;; ret None
         | None => qs <- ask e_qs ;; keys <- result_of (qs x) ;; ret (Some keys)
         end
     | _ => raise Mistake
     end)
    (ret None).

(** [displayable_body] (httpolice/message.py:198-241). *)
Definition limit : nat := Z.to_nat 1000.
Definition clip (r : str) (transforms : list str) : val * list str :=
  let (r, transforms) :=
    if Nat.ltb limit (List.length r) then (firstn limit r, transforms ++ [s "taking the first 1000 characters"]) else (r, transforms) in
  let pr := printable r in
  if str_eqb r pr then (VStr r, transforms)
  else (VStr pr, transforms ++ [s "replacing non-printable characters with the " ++ [65533%N] ++ s " sign"]).
Definition displayable_body (j : subject) : M (val * list str) :=
  te <- truth j "Transfer-Encoding" ;;
  ce <- truth j "Content-Encoding" ;;
  cs <- guessed_charset j ;;
  let removing_te := if te then [s "removing Transfer-Encoding"] else [] in
  let removing_ce := if ce then [s "removing Content-Encoding"] else [] in
  let decoding := match cs with
                  | Some (x :: c) => if str_eqb (x :: c) (s "utf-8") then [] else [s "decoding from " ++ x :: c]
                  | _ => []
                  end in
  json <- json_data j ;;
  match json with
  | JValue d =>
      r <- result_of d ;;
      ret (clip r (removing_te ++ removing_ce ++ decoding ++ [s "pretty-printing"]))
  | _ =>
      u <- unicode_body j ;;
      if okay_value u then
        match u with VStr r => ret (clip r (removing_te ++ removing_ce ++ decoding)) | _ => raise Mistake end
      else
        b <- decoded_body j ;;
        replace <- ask e_replace ;;
        if okay_value b then
          match b with VBytes x => ret (clip (replace x) (removing_te ++ removing_ce)) | _ => raise Mistake end
        else
          match m_body (j_msg j) with
          | VBytes x => ret (clip (replace x) removing_te)
          | VNone | VUnavailable _ => ret (m_body (j_msg j), [])
          | _ => raise Mistake
          end
  end.

(** Warn codes, such as [warn.transformation_applied]. *)
Definition warn (x : string) : val := const "WarnCode" x.

(** [transformed_by_proxy] (httpolice/message.py:243-248,
    httpolice/response.py:173-180), for its truth. *)
Definition transformed_by_proxy (j : subject) : M bool :=
  match j_status j with
  | Some st =>
      if (st =? 103)%Z then ret false
      else if (st =? 203)%Z then say j 1190 [] ;;; ret true
      else ifM (has_item j "Warning" (warn "214")) (say j 1189 [] ;;; ret true) (ret false)
  | None => ifM (has_item j "Warning" (warn "214")) (say j 1189 [] ;;; ret true) (ret false)
  end.

(** [is_tls] (httpolice/request.py:157-163, httpolice/response.py:182-186). *)
Definition scheme_tls (scheme : option str) : option bool :=
  match scheme with
  | Some x => if str_eqb x (s "http") then Some false else if str_eqb x (s "https") then Some true else None
  | None => None
  end.
Definition request_tls (q : option request) : option bool := match q with Some q => scheme_tls (q_scheme q) | None => None end.

(** ** The checks (httpolice/message.py:255-352), one by one *)

Section Message.
Variable j : subject.
(** [msg.is_tls]: for a request it is given by its scheme. *)
Variable tls : option bool.
Let m := j_msg j.
Definition header_arg (name : str) : str * carg := (s "header", CHeader (j_who j) name).

(** httpolice/message.py:261-274 *)
Definition is_x_prefixed (name : str) : bool :=
  ci_startswith name (s "X-") && match header_of name with None => true | Some _ => false end.
Definition check_each_header : M unit :=
  for_each (header_names j) (fun name =>
    _ <- parse_text j field_name name 1293 [header_arg name; (s "place", CVal (VStr (s "field name")))] ;;
    _ <- view j name ;;
    when (pure (flag_of hk_deprecated name)) (say j 1197 [header_arg name])) ;;;
  match filter is_x_prefixed (header_names j) with
  | [] => ret tt
  | l => say j 1277 [(s "headers", CHeaders (j_who j) l)]
  end.
(** httpolice/message.py:276-282 *)
Definition check_payload : M unit :=
  _ <- decoded_body j ;; _ <- unicode_body j ;; _ <- json_data j ;; xml_data j ;;; _ <- multipart_data j ;; _ <- url_encoded_data j ;; ret tt.
(** httpolice/message.py:284-287 *)
Definition check_trailer_chunked : M unit :=
  when (pure (version_in (m_version m) ["HTTP/1.1"]) &? present j "Trailer" &? notM (has_item j "Transfer-Encoding" (const "TransferCoding" "chunked")))
    (say j 1054 []).
(** httpolice/message.py:289-291 *)
Definition check_trailers : M unit :=
  for_each (number 0 (trailer_entries (m_entries m))) (fun e =>
    when (notM (has_item j "Trailer" (VObj (s "FieldName") [VStr (e_name (snd e))])))
      (say j 1030 [(s "header", CEntry (j_who j) (true, fst e))])).
(** httpolice/message.py:293-295 *)
Definition check_te_and_cl : M unit :=
  when (present j "Transfer-Encoding" &? present j "Content-Length") (say j 1020 []).
(** httpolice/message.py:297-299 *)
Definition check_connection : M unit :=
  l <- items j "Connection" ;;
  for_each l (fun opt => when (pure (flag_of hk_bad_for_connection (text_of opt))) (say j 1034 [header_arg (text_of opt)])).
(** httpolice/message.py:301-305 *)
Definition check_media_type : M unit :=
  when (okayM j "Content-Type")
    (i <- attr_of j "Content-Type" "item" ;;
     when (pure (media_is tk_deprecated (text_of i))) (say j 1035 []) ;;;
     p <- attr_of j "Content-Type" "param" ;;
     d <- dict p ;;
     for_each (dup_keys veq d) (fun k => say j 1042 [(s "param", CVal k)])).
(** httpolice/message.py:307-309 *)
Definition check_json_charset : M unit :=
  when (is_equal j "Content-Type" (const "MediaType" "application/json") &?
        (p <- attr_of j "Content-Type" "param" ;; dict_has p (VStr (s "charset"))))
    (say j 1280 [header_arg (s "Content-Type")]).
(** httpolice/message.py:311-312 *)
Definition check_future_date : M unit :=
  now <- ask e_now ;;
  when (compare is_gt j "Date" (instant (now (j_who j) (s "check_message") + 10 * micro)))
    (say j 1109 []).
(** httpolice/message.py:314-318 *)
Definition code_between (lo hi : Z) (v : val) : M bool :=
  n <- some_of (number_like v) ;; ret ((lo * 1000 <=? n) && (n <=? hi * 1000))%Z.
Definition check_warnings : M unit :=
  l <- items j "Warning" ;;
  for_each l (fun w =>
    code <- field "code" w ;;
    when (notM (code_between 100 299 code)) (say j 1163 [(s "code", CVal code)]) ;;;
    date <- field "date" w ;;
    when (pure (okay_value date) &? is_unequal j "Date" date) (say j 1164 [(s "code", CVal code)])).
(** httpolice/message.py:320-322 *)
Definition check_pragma : M unit :=
  l <- items j "Pragma" ;;
  for_each l (fun pragma =>
    when (pure (negb (veq pragma (VStr (s "no-cache"))))) (i <- field "item" pragma ;; say j 1160 [(s "pragma", CVal i)])).
(** httpolice/message.py:324-328 *)
Definition check_upgrade_tokens : M unit :=
  l <- items j "Upgrade" ;;
  for_each l (fun protocol =>
    i <- field "item" protocol ;;
    when (pure (veq i (VStr (s "h2")))) (say j 1228 []) ;;;
    when (pure (veq i (const "UpgradeToken" "h2c")) &? pure (says_yes tls)) (say j 1233 [])).
(** httpolice/message.py:338-339 *)
Definition check_upgrade_option : M unit :=
  when (present j "Upgrade" &? notM (has_item j "Connection" (VStr (s "upgrade")))) (say j 1050 []).
(** httpolice/message.py:341-345 *)
Definition check_transformed : M unit :=
  when (transformed_by_proxy j)
    (when (notM (has_item j "Warning" (warn "214"))) (say j 1191 []) ;;;
     when (v <- directive_of j "Cache-Control" "no-transform" ;; ret (truthy_val v)) (say j 1192 [])).
(** httpolice/message.py:347-352 *)
Definition check_http2_headers : M unit :=
  if version_in (m_version m) ["HTTP/2"] then
    for_each (header_names j) (fun name =>
      if among name ["Connection"; "Transfer-Encoding"; "Keep-Alive"] then say j 1244 [header_arg name]
      else when (pure (among name ["Upgrade"])) (say j 1245 []))
  else ret tt.

(** [check_message] (httpolice/message.py:255-352). *)
Definition is_early : bool := match j_status j with Some st => (st =? 103)%Z | None => false end.
Definition message_checks : list (M unit) :=
  [check_each_header; check_payload; check_trailer_chunked; check_trailers; check_te_and_cl; check_connection; check_media_type;
   check_json_charset; check_future_date; check_warnings; check_pragma; check_upgrade_tokens] ++
  (if is_early then [] else [check_upgrade_option; check_transformed; check_http2_headers]).
Definition check_message : M unit := seq message_checks.
End Message.
