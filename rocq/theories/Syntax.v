(** The grammar: every symbol of httpolice/syntax/*.py, written with the
    combinators of Grammar.v.

    [x <|> y], [x * y], [x + y], [f <<< x] stand for Python's [x | y], [x * y],
    [x + y], [f << x], [modl x y] for [x % y]; a string stands for the literal
    ([as_symbol], httpolice/parse.py:531-532).  Octet numbers are in decimal.
    Citations are left out. *)
From Coq Require Import String.
From Verif Require Import Base Earley Grammar.
Open Scope nat_scope.
Unset Strict Implicit.

Definition lit (x : string) : symbol := literal (s x).
Coercion lit : string >-> symbol.

Declare Scope grammar_scope.
Delimit Scope grammar_scope with gr.
Notation "x <|> y" := (alt x y) (at level 65, left associativity) : grammar_scope.
Notation "f <<< x" := (wrap f x) (at level 60, right associativity) : grammar_scope.
Notation "x * y" := (seq2 x y) : grammar_scope.
Notation "x + y" := (add x y) : grammar_scope.
Bind Scope grammar_scope with symbol.
Open Scope string_scope.
Open Scope grammar_scope.

(** [> auto] and [> pivot] with the name that [fill_names] finds
    (httpolice/parse.py:625-655). *)
Definition auto_ (name : string) (x : symbol) : symbol := seal (s name) false x.
Definition pivot_ (name : string) (x : symbol) : symbol := seal (s name) true x.

(** A class of httpolice.structure as a function. *)
Definition class (name : string) : func := FClass (s name).

(** [maybe] with the default [None] (httpolice/parse.py:552-553), and
    [string_times] with two bounds (574-575). *)
Definition maybe_ (x : symbol) : symbol := maybe x VNone.
Definition string_times_ (a b : nat) (x : symbol) : symbol := string_times a (Some b) x.

(** [literal(c1) | c2 | c3 ...], one character each. *)
Definition any_of (x : string) : symbol :=
  match s x with
  | [] => empty
  | c :: x' => fold_left (fun r c => r <|> literal_c false c) x' (literal_c false c)
  end.

(** [octet(c1) * octet(c2) * ...] (httpolice/syntax/rfc7231.py:113-130). *)
Definition octets (x : str) : symbol :=
  match x with
  | [] => empty
  | c :: x' => fold_left (fun r c => r * octet c) x' (octet c)
  end.


(** ** common.py *)

(** httpolice/syntax/common.py:7 *)
Definition ALPHA : symbol :=
  auto_ "ALPHA" (octet_range 65 90 <|> octet_range 97 122).
(** httpolice/syntax/common.py:8 *)
Definition CHAR : symbol :=
  auto_ "CHAR" (octet_range 1 127).
(** httpolice/syntax/common.py:9 *)
Definition CTL : symbol :=
  auto_ "CTL" (octet_range 0 31 <|> octet 127).
(** httpolice/syntax/common.py:10 *)
Definition DIGIT : symbol :=
  auto_ "DIGIT" (octet_range 48 57).
(** httpolice/syntax/common.py:11 *)
Definition DQUOTE : symbol :=
  auto_ "DQUOTE" (octet 34).
(** httpolice/syntax/common.py:12 *)
Definition HEXDIG : symbol :=
  auto_ "HEXDIG" (DIGIT <|> "A" <|> "B" <|> "C" <|> "D" <|> "E" <|> "F").
(** httpolice/syntax/common.py:13 *)
Definition HTAB : symbol :=
  auto_ "HTAB" (octet 9).
(** httpolice/syntax/common.py:14 *)
Definition SP : symbol :=
  auto_ "SP" (octet 32).
(** httpolice/syntax/common.py:15 *)
Definition VCHAR : symbol :=
  auto_ "VCHAR" (octet_range 33 126).

(** ** rfc3986.py *)

(** httpolice/syntax/rfc3986.py:8 *)
Definition pct_encoded : symbol :=
  auto_ "pct-encoded" ("%" + HEXDIG + HEXDIG).
(** httpolice/syntax/rfc3986.py:9-10 *)
Definition sub_delims : symbol :=
  auto_ "sub-delims" (any_of "!$&'()*+,;=").
(** httpolice/syntax/rfc3986.py:11 *)
Definition unreserved : symbol :=
  auto_ "unreserved" (ALPHA <|> DIGIT <|> "-" <|> "." <|> "_" <|> "~").
(** httpolice/syntax/rfc3986.py:12 *)
Definition pchar : symbol :=
  auto_ "pchar" (unreserved <|> sub_delims <|> ":" <|> "@" <|> pct_encoded).
(** httpolice/syntax/rfc3986.py:14 *)
Definition segment : symbol :=
  auto_ "segment" (string_ pchar).
(** httpolice/syntax/rfc3986.py:15 *)
Definition segment_nz : symbol :=
  auto_ "segment-nz" (string1 pchar).
(** httpolice/syntax/rfc3986.py:16 *)
Definition segment_nz_nc : symbol :=
  auto_ "segment-nz-nc" (string1 (unreserved <|> sub_delims <|> "@" <|> pct_encoded)).
(** httpolice/syntax/rfc3986.py:18 *)
Definition scheme : symbol :=
  pivot_ "scheme" (ALPHA + string_ (ALPHA <|> DIGIT <|> "+" <|> "-" <|> ".")).
(** httpolice/syntax/rfc3986.py:19 *)
Definition userinfo : symbol :=
  pivot_ "userinfo" (string_ (unreserved <|> sub_delims <|> ":" <|> pct_encoded)).
(** httpolice/syntax/rfc3986.py:20-24 *)
Definition dec_octet : symbol :=
  auto_ "dec-octet" (DIGIT <|> octet_range 49 57 + DIGIT <|> "1" + DIGIT + DIGIT <|> "2" +
  octet_range 48 52 + DIGIT <|> "25" + octet_range 48 53).
(** httpolice/syntax/rfc3986.py:25-26 *)
Definition IPv4address : symbol :=
  pivot_ "IPv4address" (dec_octet + "." + dec_octet + "." + dec_octet + "." + dec_octet).
(** httpolice/syntax/rfc3986.py:27 *)
Definition h16 : symbol :=
  auto_ "h16" (string_times_ 1 4 HEXDIG).
(** httpolice/syntax/rfc3986.py:28 *)
Definition ls32 : symbol :=
  auto_ "ls32" ((h16 + ":" + h16) <|> IPv4address).
(** httpolice/syntax/rfc3986.py:29-41 *)
Definition IPv6address : symbol :=
  pivot_ "IPv6address" (string_times_ 6 6 (h16 + ":") + ls32 <|> "::" + string_times_ 5 5 (h16 +
  ":") + ls32 <|> maybe_str h16 + "::" + string_times_ 4 4 (h16 + ":") + ls32 <|> maybe_str
  (string_times_ 0 1 (h16 + ":") + h16) + "::" + string_times_ 3 3 (h16 + ":") + ls32 <|> maybe_str
  (string_times_ 0 2 (h16 + ":") + h16) + "::" + string_times_ 2 2 (h16 + ":") + ls32 <|> maybe_str
  (string_times_ 0 3 (h16 + ":") + h16) + "::" + h16 + ":" + ls32 <|> maybe_str (string_times_ 0 4
  (h16 + ":") + h16) + "::" + ls32 <|> maybe_str (string_times_ 0 5 (h16 + ":") + h16) + "::" + h16
  <|> maybe_str (string_times_ 0 6 (h16 + ":") + h16) + "::").
(** httpolice/syntax/rfc3986.py:43-44 *)
Definition IPvFuture : symbol :=
  pivot_ "IPvFuture" ("v" + string1 HEXDIG + "." + string1 (unreserved <|> sub_delims <|> ":")).
(** httpolice/syntax/rfc3986.py:47 *)
Definition ZoneID : symbol :=
  pivot_ "ZoneID" (string1 (unreserved <|> pct_encoded)).
(** httpolice/syntax/rfc3986.py:48 *)
Definition IPv6addrz : symbol :=
  pivot_ "IPv6addrz" (IPv6address + "%25" + ZoneID).
(** httpolice/syntax/rfc3986.py:49 *)
Definition IP_literal : symbol :=
  pivot_ "IP-literal" ("[" + (IPv6address <|> IPv6addrz <|> IPvFuture) + "]").
(** httpolice/syntax/rfc3986.py:51 *)
Definition reg_name : symbol :=
  pivot_ "reg-name" (string_ (unreserved <|> sub_delims <|> pct_encoded)).
(** httpolice/syntax/rfc3986.py:52 *)
Definition host : symbol :=
  pivot_ "host" (IP_literal <|> IPv4address <|> reg_name).
(** httpolice/syntax/rfc3986.py:53 *)
Definition port : symbol :=
  pivot_ "port" (string_ DIGIT).
(** httpolice/syntax/rfc3986.py:54 *)
Definition authority : symbol :=
  pivot_ "authority" (maybe_str (userinfo + "@") + host + maybe_str (":" + port)).
(** httpolice/syntax/rfc3986.py:56 *)
Definition path_abempty : symbol :=
  auto_ "path-abempty" (string_ ("/" + segment)).
(** httpolice/syntax/rfc3986.py:57 *)
Definition path_absolute : symbol :=
  auto_ "path-absolute" ("/" + maybe_str (segment_nz + string_ ("/" + segment))).
(** httpolice/syntax/rfc3986.py:58 *)
Definition path_noscheme : symbol :=
  auto_ "path-noscheme" (segment_nz_nc + string_ ("/" + segment)).
(** httpolice/syntax/rfc3986.py:59 *)
Definition path_rootless : symbol :=
  auto_ "path-rootless" (segment_nz + string_ ("/" + segment)).
(** httpolice/syntax/rfc3986.py:60 *)
Definition path_empty : symbol :=
  auto_ "path-empty" (FSubst (VStr []) <<< empty).
(** httpolice/syntax/rfc3986.py:62-63 *)
Definition hier_part : symbol :=
  pivot_ "hier-part" ("//" + authority + path_abempty <|> path_absolute <|> path_rootless <|>
  path_empty).
(** httpolice/syntax/rfc3986.py:65 *)
Definition query : symbol :=
  pivot_ "query" (string_ (pchar <|> "/" <|> "?")).
(** httpolice/syntax/rfc3986.py:66 *)
Definition fragment : symbol :=
  pivot_ "fragment" (string_ (pchar <|> "/" <|> "?")).
(** httpolice/syntax/rfc3986.py:68 *)
Definition absolute_URI : symbol :=
  pivot_ "absolute-URI" (scheme + ":" + hier_part + maybe_str ("?" + query)).
(** httpolice/syntax/rfc3986.py:70-71 *)
Definition relative_part : symbol :=
  pivot_ "relative-part" ("//" + authority + path_abempty <|> path_absolute <|> path_noscheme <|>
  path_empty).
(** httpolice/syntax/rfc3986.py:73-74 *)
Definition URI : symbol :=
  pivot_ "URI" (scheme + ":" + hier_part + maybe_str ("?" + query) + maybe_str ("#" + fragment)).
(** httpolice/syntax/rfc3986.py:76-77 *)
Definition relative_ref : symbol :=
  pivot_ "relative-ref" (relative_part + maybe_str ("?" + query) + maybe_str ("#" + fragment)).
(** httpolice/syntax/rfc3986.py:79 *)
Definition URI_reference : symbol :=
  pivot_ "URI-reference" (URI <|> relative_ref).

(** ** rfc7230.py *)

(** httpolice/syntax/rfc7230.py:15 *)
Definition obs_text : symbol :=
  auto_ "obs-text" (octet_range 128 255).
(** httpolice/syntax/rfc7230.py:17-18 *)
Definition tchar : symbol :=
  auto_ "tchar" (any_of "!#$%&'*+-.^_`|~" <|> DIGIT <|> ALPHA).
(** httpolice/syntax/rfc7230.py:20 *)
Definition token : symbol :=
  auto_ "token" (string1 tchar).
(** httpolice/syntax/rfc7230.py:22-23 *)
Definition token__excluding (excluding : list string) : symbol :=
  string_excluding tchar ([] :: map s excluding).
(** httpolice/syntax/rfc7230.py:25-34 *)
Definition quoted_pair (sensible_for : string) : symbol :=
  seal (s "quoted-pair") false (FPy (PCheckSensible (s sensible_for)) <<< skip "\" * (HTAB <|> SP
  <|> VCHAR <|> obs_text)).
(** httpolice/syntax/rfc7230.py:36-37 *)
Definition qdtext : symbol :=
  auto_ "qdtext" (HTAB <|> SP <|> octet 33 <|> octet_range 35 91 <|> octet_range 93 126 <|>
  obs_text).
(** httpolice/syntax/rfc7230.py:38-40 *)
Definition quoted_string : symbol :=
  auto_ "quoted-string" (skip DQUOTE * string_ (qdtext <|> quoted_pair """\") * skip DQUOTE).
(** httpolice/syntax/rfc7230.py:42-43 *)
Definition ctext : symbol :=
  auto_ "ctext" (HTAB <|> SP <|> octet_range 33 39 <|> octet_range 42 91 <|> octet_range 93 126 <|>
  obs_text).
(** The recursive symbol inside [comment] (httpolice/syntax/rfc7230.py:44-47).  Each
    call of [comment] makes its own; they have equal rules. *)
Definition comment_rec : symbol := Rec (s "comment").
Definition comment_rules : list rule :=
  match "(" + string_ (ctext <|> quoted_pair "()\" <|> comment_rec) + ")" with
  | Simple _ rs => rs
  | _ => []
  end.
(** [set_rules_from], for all recursive symbols of the grammar. *)
Definition rec_rules (n : str) : list rule := if str_eqb n (s "comment") then comment_rules else [].
(** [comment(include_parens=False)] (httpolice/syntax/rfc7230.py:43-50); the other form is not used. *)
Definition comment : symbol := seal (s "comment") false (FPy PStripParens <<< comment_rec).
(** httpolice/syntax/rfc7230.py:53 *)
Definition OWS : symbol :=
  auto_ "OWS" (string_ (SP <|> HTAB)).
(** httpolice/syntax/rfc7230.py:61 *)
Definition RWS : symbol :=
  auto_ "RWS" (FPy PJustOneSpace <<< string1 (SP <|> HTAB)).
(** httpolice/syntax/rfc7230.py:69 *)
Definition BWS : symbol :=
  auto_ "BWS" (FPy PBadWhitespace <<< OWS).
(** httpolice/syntax/rfc7230.py:78-83 *)
Definition comma_list (element : symbol) : symbol :=
  seal (s "#rule") false (FPy PCollectElements <<< modl (maybe_ (group element * skip OWS)) (many
  (skip (literal (s ",") * OWS) * maybe_ (group element * skip OWS)))).
(** httpolice/syntax/rfc7230.py:85-90 *)
Definition comma_list1 (element : symbol) : symbol :=
  seal (s "1#rule") false (FPy PCollectElements <<< (many (FSubst VNone <<< "," * OWS) + (FPy
  PSingleton <<< group element) + many (skip (OWS * ",") * maybe_ (skip OWS * element)))).
(** httpolice/syntax/rfc7230.py:92 *)
Definition method : symbol :=
  pivot_ "method" (class "Method" <<< token).
(** httpolice/syntax/rfc7230.py:94 *)
Definition absolute_path : symbol :=
  pivot_ "absolute-path" (string1 ("/" + segment)).
(** httpolice/syntax/rfc7230.py:95 *)
Definition partial_URI : symbol :=
  pivot_ "partial-URI" (relative_part + maybe_str ("?" + query)).
(** httpolice/syntax/rfc7230.py:96 *)
Definition origin_form : symbol :=
  pivot_ "origin-form" (absolute_path + maybe_str ("?" + query)).
(** httpolice/syntax/rfc7230.py:97 *)
Definition absolute_form : symbol :=
  pivot_ "absolute-form" (absolute_URI).
(** httpolice/syntax/rfc7230.py:98 *)
Definition authority_form : symbol :=
  pivot_ "authority-form" (authority).
(** httpolice/syntax/rfc7230.py:99 *)
Definition asterisk_form : symbol :=
  auto_ "asterisk-form" (literal (s "*")).
(** httpolice/syntax/rfc7230.py:100-103 *)
Definition request_target : symbol :=
  pivot_ "request-target" (origin_form <|> absolute_form <|> authority_form <|> asterisk_form).
(** httpolice/syntax/rfc7230.py:105 *)
Definition reason_phrase : symbol :=
  pivot_ "reason-phrase" (string_ (HTAB <|> SP <|> VCHAR <|> obs_text)).
(** httpolice/syntax/rfc7230.py:107 *)
Definition field_name : symbol :=
  pivot_ "field-name" (class "FieldName" <<< token).
(** httpolice/syntax/rfc7230.py:109-113 *)
Definition transfer_parameter (no_q : bool) : symbol :=
  seal (s "transfer-parameter") true ((if no_q then token__excluding ["q"] else token) * skip (BWS
  * "=" * BWS) * (token <|> quoted_string)).
(** httpolice/syntax/rfc7230.py:118-122 *)
Definition transfer_extension (exclude : list string) (no_q : bool) : symbol :=
  seal (s "transfer-extension") true (class "Parametrized" <<< (class "TransferCoding" <<<
  token__excluding exclude) * (class "MultiDict" <<< many (skip (OWS * ";" * OWS) *
  transfer_parameter no_q))).
(** httpolice/syntax/rfc7230.py:115 *)
Definition built_in_codings : list string :=
  ["chunked"; "compress"; "deflate"; "gzip"].
(** httpolice/syntax/rfc7230.py:124-131 *)
Definition transfer_coding (no_trailers no_q : bool) : symbol :=
  seal (s "transfer-coding") true (fold_left (fun r name => r <|> FPy PEmptyParams <<< (class
  "TransferCoding" <<< literal (s name))) built_in_codings (transfer_extension (built_in_codings ++
  (if no_trailers then ["trailers"] else [])) no_q)).
(** httpolice/syntax/rfc7230.py:133 *)
Definition Transfer_Encoding : symbol :=
  pivot_ "Transfer-Encoding" (comma_list1 (transfer_coding false false)).
(** httpolice/syntax/rfc7230.py:135-136 *)
Definition rank : symbol :=
  pivot_ "rank" (FFloat <<< "0" + maybe_str ("." + string_times_ 0 3 DIGIT) <|> FFloat <<< "1" +
  maybe_str ("." + string_times_ 0 3 "0")).
(** httpolice/syntax/rfc7230.py:137 *)
Definition t_ranking : symbol :=
  pivot_ "t-ranking" (skip (OWS * ";" * OWS * "q=") * rank).
(** httpolice/syntax/rfc7230.py:138-140 *)
Definition t_codings : symbol :=
  pivot_ "t-codings" (class "CaseInsensitive" <<< literal (s "trailers") <|> class "Parametrized"
  <<< (transfer_coding true true * maybe_ t_ranking)).
(** httpolice/syntax/rfc7230.py:141 *)
Definition TE : symbol :=
  pivot_ "TE" (comma_list t_codings).
(** httpolice/syntax/rfc7230.py:143 *)
Definition Trailer : symbol :=
  pivot_ "Trailer" (comma_list1 field_name).
(** httpolice/syntax/rfc7230.py:145 *)
Definition Host : symbol :=
  pivot_ "Host" (host + maybe_str (":" + port)).
(** httpolice/syntax/rfc7230.py:147 *)
Definition connection_option : symbol :=
  pivot_ "connection-option" (class "ConnectionOption" <<< token).
(** httpolice/syntax/rfc7230.py:148 *)
Definition Connection : symbol :=
  pivot_ "Connection" (comma_list1 connection_option).
(** httpolice/syntax/rfc7230.py:150 *)
Definition protocol_name : symbol :=
  pivot_ "protocol-name" (token).
(** httpolice/syntax/rfc7230.py:151 *)
Definition protocol_version : symbol :=
  pivot_ "protocol-version" (token).
(** httpolice/syntax/rfc7230.py:152-153 *)
Definition protocol : symbol :=
  pivot_ "protocol" (class "Versioned" <<< (class "UpgradeToken" <<< protocol_name) * maybe_ (skip
  "/" * protocol_version)).
(** httpolice/syntax/rfc7230.py:154 *)
Definition Upgrade : symbol :=
  pivot_ "Upgrade" (comma_list1 protocol).
(** httpolice/syntax/rfc7230.py:156-157 *)
Definition received_protocol : symbol :=
  pivot_ "received-protocol" (class "Versioned" <<< (maybe (protocol_name * skip "/") (VStr (s
  "HTTP")) * protocol_version)).
(** httpolice/syntax/rfc7230.py:158 *)
Definition pseudonym : symbol :=
  pivot_ "pseudonym" (token).
(** httpolice/syntax/rfc7230.py:159 *)
Definition received_by : symbol :=
  pivot_ "received-by" (host + maybe_str (":" + port) <|> pseudonym).
(** httpolice/syntax/rfc7230.py:160-162 *)
Definition Via : symbol :=
  pivot_ "Via" (comma_list1 (received_protocol * skip RWS * received_by * maybe_ (skip RWS *
  comment))).
(** httpolice/syntax/rfc7230.py:164 *)
Definition Content_Length : symbol :=
  pivot_ "Content-Length" (FInt <<< string1 DIGIT).

(** ** rfc4647.py *)

(** httpolice/syntax/rfc4647.py:7 *)
Definition alphanum_4647 : symbol :=
  auto_ "alphanum" (ALPHA <|> DIGIT).
(** httpolice/syntax/rfc4647.py:8-10 *)
Definition language_range : symbol :=
  pivot_ "language-range" (class "CaseInsensitive" <<< (string_times_ 1 8 ALPHA + string_ ("-" +
  string_times_ 1 8 alphanum_4647) <|> "*")).

(** ** rfc5646.py *)

(** httpolice/syntax/rfc5646.py:8-9 *)
Definition singleton : symbol :=
  auto_ "singleton" (DIGIT <|> octet_range 65 87 <|> octet_range 89 90 <|> octet_range 97 119 <|>
  octet_range 121 122).
(** httpolice/syntax/rfc5646.py:10 *)
Definition alphanum : symbol :=
  auto_ "alphanum" (ALPHA <|> DIGIT).
(** httpolice/syntax/rfc5646.py:12-28 *)
Definition irregular : symbol :=
  auto_ "irregular" (literal (s "en-GB-oed") <|> "i-ami" <|> "i-bnn" <|> "i-default" <|>
  "i-enochian" <|> "i-hak" <|> "i-klingon" <|> "i-lux" <|> "i-mingo" <|> "i-navajo" <|> "i-pwn" <|>
  "i-tao" <|> "i-tay" <|> "i-tsu" <|> "sgn-BE-FR" <|> "sgn-BE-NL" <|> "sgn-CH-DE").
(** httpolice/syntax/rfc5646.py:30-38 *)
Definition regular : symbol :=
  auto_ "regular" (literal (s "art-lojban") <|> "cel-gaulish" <|> "no-bok" <|> "no-nyn" <|>
  "zh-guoyu" <|> "zh-hakka" <|> "zh-min" <|> "zh-min-nan" <|> "zh-xiang").
(** httpolice/syntax/rfc5646.py:40 *)
Definition grandfathered : symbol :=
  pivot_ "grandfathered" (irregular <|> regular).
(** httpolice/syntax/rfc5646.py:41 *)
Definition privateuse : symbol :=
  pivot_ "privateuse" ("x" + string1 ("-" + string_times_ 1 8 alphanum)).
(** httpolice/syntax/rfc5646.py:43-44 *)
Definition extlang : symbol :=
  pivot_ "extlang" (string_times_ 3 3 ALPHA + string_times_ 0 2 ("-" + string_times_ 3 3 ALPHA)).
(** httpolice/syntax/rfc5646.py:46-47 *)
Definition language_5646 : symbol :=
  pivot_ "language" (string_times_ 2 3 ALPHA + maybe_str ("-" + extlang) <|> string_times_ 4 4
  ALPHA <|> string_times_ 5 8 ALPHA).
(** httpolice/syntax/rfc5646.py:48 *)
Definition script : symbol :=
  pivot_ "script" (string_times_ 4 4 ALPHA).
(** httpolice/syntax/rfc5646.py:49 *)
Definition region : symbol :=
  pivot_ "region" (string_times_ 2 2 ALPHA <|> string_times_ 3 3 DIGIT).
(** httpolice/syntax/rfc5646.py:50-51 *)
Definition variant : symbol :=
  pivot_ "variant" (string_times_ 5 8 alphanum <|> (DIGIT + string_times_ 3 3 alphanum)).
(** httpolice/syntax/rfc5646.py:52 *)
Definition extension : symbol :=
  pivot_ "extension" (singleton + string1 ("-" + string_times_ 2 8 alphanum)).
(** httpolice/syntax/rfc5646.py:54-59 *)
Definition langtag : symbol :=
  pivot_ "langtag" (language_5646 + maybe_str ("-" + script) + maybe_str ("-" + region) + string_
  ("-" + variant) + string_ ("-" + extension) + maybe_str ("-" + privateuse)).
(** httpolice/syntax/rfc5646.py:61-63 *)
Definition Language_Tag : symbol :=
  pivot_ "Language-Tag" (class "LanguageTag" <<< langtag <|> class "LanguageTag" <<< privateuse <|>
  class "LanguageTag" <<< grandfathered).

(** ** rfc7231.py *)

(** httpolice/syntax/rfc7231.py:27-31 *)
Definition parameter (exclude : list string) (name_cls : string) : symbol :=
  seal (s "parameter") true ((class name_cls <<< token__excluding exclude) * skip "=" * (token <|>
  quoted_string)).
(** httpolice/syntax/rfc7231.py:33 *)
Definition type_ : symbol :=
  pivot_ "type" (token).
(** httpolice/syntax/rfc7231.py:34 *)
Definition subtype : symbol :=
  pivot_ "subtype" (token).
(** httpolice/syntax/rfc7231.py:35-37 *)
Definition media_type : symbol :=
  pivot_ "media-type" (class "Parametrized" <<< ((FPy PCheckMediaType <<< (class "MediaType" <<<
  type_ + "/" + subtype)) * (class "MultiDict" <<< many (skip (OWS * ";" * OWS) * parameter []
  "CaseInsensitive")))).
(** httpolice/syntax/rfc7231.py:39 *)
Definition content_coding : symbol :=
  pivot_ "content-coding" (class "ContentCoding" <<< token).
(** httpolice/syntax/rfc7231.py:41 *)
Definition product_version : symbol :=
  pivot_ "product-version" (token).
(** httpolice/syntax/rfc7231.py:42-43 *)
Definition product : symbol :=
  pivot_ "product" (class "Versioned" <<< (class "ProductName" <<< token) * maybe_ (skip "/" *
  product_version)).
(** httpolice/syntax/rfc7231.py:44-45 *)
Definition User_Agent : symbol :=
  pivot_ "User-Agent" (modl product (many (skip RWS * (product <|> comment)))).
(** httpolice/syntax/rfc7231.py:46-47 *)
Definition Server : symbol :=
  pivot_ "Server" (modl product (many (skip RWS * (product <|> comment)))).
(** httpolice/syntax/rfc7231.py:49-55 *)
Definition day_name : symbol :=
  pivot_ "day-name" (FSubst (VInt 0) <<< octet 77 * octet 111 * octet 110 <|> FSubst (VInt 1) <<<
  octet 84 * octet 117 * octet 101 <|> FSubst (VInt 2) <<< octet 87 * octet 101 * octet 100 <|>
  FSubst (VInt 3) <<< octet 84 * octet 104 * octet 117 <|> FSubst (VInt 4) <<< octet 70 * octet 114
  * octet 105 <|> FSubst (VInt 5) <<< octet 83 * octet 97 * octet 116 <|> FSubst (VInt 6) <<< octet
  83 * octet 117 * octet 110).
(** httpolice/syntax/rfc7231.py:66 *)
Definition day : symbol :=
  pivot_ "day" (FInt <<< string_times_ 2 2 DIGIT).
(** httpolice/syntax/rfc7231.py:67-78 *)
Definition month : symbol :=
  pivot_ "month" (FSubst (VInt 1) <<< octet 74 * octet 97 * octet 110 <|> FSubst (VInt 2) <<< octet
  70 * octet 101 * octet 98 <|> FSubst (VInt 3) <<< octet 77 * octet 97 * octet 114 <|> FSubst
  (VInt 4) <<< octet 65 * octet 112 * octet 114 <|> FSubst (VInt 5) <<< octet 77 * octet 97 * octet
  121 <|> FSubst (VInt 6) <<< octet 74 * octet 117 * octet 110 <|> FSubst (VInt 7) <<< octet 74 *
  octet 117 * octet 108 <|> FSubst (VInt 8) <<< octet 65 * octet 117 * octet 103 <|> FSubst (VInt
  9) <<< octet 83 * octet 101 * octet 112 <|> FSubst (VInt 10) <<< octet 79 * octet 99 * octet 116
  <|> FSubst (VInt 11) <<< octet 78 * octet 111 * octet 118 <|> FSubst (VInt 12) <<< octet 68 *
  octet 101 * octet 99).
(** httpolice/syntax/rfc7231.py:79 *)
Definition year : symbol :=
  pivot_ "year" (FInt <<< string_times_ 4 4 DIGIT).
(** httpolice/syntax/rfc7231.py:81 *)
Definition date1 : symbol :=
  pivot_ "date1" (FPy PToDate <<< day * skip SP * month * skip SP * year).
(** httpolice/syntax/rfc7231.py:95 *)
Definition hour : symbol :=
  pivot_ "hour" (FInt <<< string_times_ 2 2 DIGIT).
(** httpolice/syntax/rfc7231.py:96 *)
Definition minute : symbol :=
  pivot_ "minute" (FInt <<< string_times_ 2 2 DIGIT).
(** httpolice/syntax/rfc7231.py:97 *)
Definition second : symbol :=
  pivot_ "second" (FInt <<< string_times_ 2 2 DIGIT).
(** httpolice/syntax/rfc7231.py:99-101 *)
Definition time_of_day : symbol :=
  pivot_ "time-of-day" (FPy PToTime <<< (hour * skip ":" * minute * skip ":" * second)).
(** httpolice/syntax/rfc7231.py:108 *)
Definition GMT : symbol :=
  auto_ "GMT" (octet 71 * octet 77 * octet 84).
(** httpolice/syntax/rfc7231.py:109-111 *)
Definition IMF_fixdate : symbol :=
  pivot_ "IMF-fixdate" (FPy PToDatetime <<< (day_name * skip ("," * SP) * date1 * skip SP *
  time_of_day * skip (SP * GMT))).
(** httpolice/syntax/rfc7231.py:113-129 *)
Definition day_name_l : symbol :=
  pivot_ "day-name-l" (FSubst (VInt 0) <<< octets [77; 111; 110; 100; 97; 121]%N <|> FSubst (VInt
  1) <<< octets [84; 117; 101; 115; 100; 97; 121]%N <|> FSubst (VInt 2) <<< octets [87; 101; 100;
  110; 101; 115; 100; 97; 121]%N <|> FSubst (VInt 3) <<< octets [84; 104; 117; 114; 115; 100; 97;
  121]%N <|> FSubst (VInt 4) <<< octets [70; 114; 105; 100; 97; 121]%N <|> FSubst (VInt 5) <<<
  octets [83; 97; 116; 117; 114; 100; 97; 121]%N <|> FSubst (VInt 6) <<< octets [83; 117; 110; 100;
  97; 121]%N).
(** httpolice/syntax/rfc7231.py:131-134 *)
Definition date2 : symbol :=
  pivot_ "date2" (FPy PToDate <<< (day * skip "-" * month * skip "-" * (FPy PYear19 <<<
  string_times_ 2 2 DIGIT))).
(** httpolice/syntax/rfc7231.py:136-138 *)
Definition rfc850_date : symbol :=
  pivot_ "rfc850-date" (FPy PToDatetime <<< (day_name_l * skip ("," * SP) * date2 * skip SP *
  time_of_day * skip (SP * GMT))).
(** httpolice/syntax/rfc7231.py:140-141 *)
Definition date3 : symbol :=
  pivot_ "date3" (month * skip SP * (FInt <<< string_times_ 2 2 DIGIT <|> FInt <<< skip SP *
  DIGIT)).
(** httpolice/syntax/rfc7231.py:148-151 *)
Definition asctime_date : symbol :=
  pivot_ "asctime-date" (FPy PFromAsctime <<< (day_name * skip SP * date3 * skip SP * time_of_day *
  skip SP * year)).
(** httpolice/syntax/rfc7231.py:158-159 *)
Definition obs_date : symbol :=
  pivot_ "obs-date" (FPy PObsoleteDate <<< rfc850_date <|> FPy PObsoleteDate <<< asctime_date).
(** httpolice/syntax/rfc7231.py:170-171 *)
Definition HTTP_date : symbol :=
  pivot_ "HTTP-date" (FPy PCheckDayOfWeek <<< IMF_fixdate <|> FPy PCheckDayOfWeek <<< obs_date).
(** httpolice/syntax/rfc7231.py:173-186 *)
Definition media_range (no_q : bool) : symbol :=
  seal (s "media-range") true (class "Parametrized" <<< ((literal (s "*/*") <|> type_ + "/" + "*"
  <|> FPy PCheckMediaType <<< (class "MediaType" <<< type_ + "/" + subtype)) * (class "MultiDict"
  <<< many (skip (OWS * ";" * OWS) * parameter (if no_q then ["q"] else []) "CaseInsensitive")))).
(** httpolice/syntax/rfc7231.py:188-189 *)
Definition qvalue : symbol :=
  pivot_ "qvalue" (FFloat <<< "0" + maybe_str ("." + string_times_ 0 3 DIGIT) <|> FFloat <<< "1" +
  maybe_str ("." + string_times_ 0 3 "0")).
(** httpolice/syntax/rfc7231.py:190 *)
Definition weight : symbol :=
  pivot_ "weight" (skip (OWS * ";" * OWS * "q=") * qvalue).
(** httpolice/syntax/rfc7231.py:191-192 *)
Definition accept_ext : symbol :=
  pivot_ "accept-ext" (skip (OWS * ";" * OWS) * token * maybe_ (skip "=" * (token <|>
  quoted_string))).
(** httpolice/syntax/rfc7231.py:197 *)
Definition accept_params : symbol :=
  pivot_ "accept-params" (FPy PPrependQ <<< weight * many accept_ext).
(** httpolice/syntax/rfc7231.py:199-201 *)
Definition Accept : symbol :=
  pivot_ "Accept" (comma_list (class "Parametrized" <<< (media_range true * maybe accept_params
  (VObj (s "MultiDict") [VList []])))).
(** httpolice/syntax/rfc7231.py:203 *)
Definition charset : symbol :=
  pivot_ "charset" (class "Charset" <<< token).
(** httpolice/syntax/rfc7231.py:204-206 *)
Definition Accept_Charset : symbol :=
  pivot_ "Accept-Charset" (comma_list1 (class "Parametrized" <<< ((charset <|> class "Charset" <<<
  literal (s "*")) * maybe_ weight))).
(** httpolice/syntax/rfc7231.py:208-210 *)
Definition codings : symbol :=
  pivot_ "codings" (content_coding <|> class "ContentCoding" <<< literal (s "identity") <|> literal
  (s "*")).
(** httpolice/syntax/rfc7231.py:211 *)
Definition Accept_Encoding : symbol :=
  pivot_ "Accept-Encoding" (comma_list (class "Parametrized" <<< codings * maybe_ weight)).
(** httpolice/syntax/rfc7231.py:213-214 *)
Definition Accept_Language : symbol :=
  pivot_ "Accept-Language" (comma_list1 (class "Parametrized" <<< language_range * maybe_ weight)).
(** httpolice/syntax/rfc7231.py:216 *)
Definition delay_seconds : symbol :=
  pivot_ "delay-seconds" (FInt <<< string1 DIGIT).
(** httpolice/syntax/rfc7231.py:217 *)
Definition Retry_After : symbol :=
  pivot_ "Retry-After" (HTTP_date <|> delay_seconds).
(** httpolice/syntax/rfc7231.py:219 *)
Definition Allow : symbol :=
  pivot_ "Allow" (comma_list method).
(** httpolice/syntax/rfc7231.py:220 *)
Definition Content_Encoding : symbol :=
  pivot_ "Content-Encoding" (comma_list1 content_coding).
(** httpolice/syntax/rfc7231.py:221 *)
Definition Content_Language : symbol :=
  pivot_ "Content-Language" (comma_list1 Language_Tag).
(** httpolice/syntax/rfc7231.py:222 *)
Definition Content_Location : symbol :=
  pivot_ "Content-Location" (absolute_URI <|> partial_URI).
(** httpolice/syntax/rfc7231.py:223 *)
Definition Content_Type : symbol :=
  pivot_ "Content-Type" (media_type).
(** httpolice/syntax/rfc7231.py:224 *)
Definition Date : symbol :=
  pivot_ "Date" (HTTP_date).
(** httpolice/syntax/rfc7231.py:225 *)
Definition Location : symbol :=
  pivot_ "Location" (URI_reference).
(** httpolice/syntax/rfc7231.py:226 *)
Definition Max_Forwards : symbol :=
  pivot_ "Max-Forwards" (FInt <<< string1 DIGIT).
(** httpolice/syntax/rfc7231.py:227 *)
Definition Referer : symbol :=
  pivot_ "Referer" (absolute_URI <|> partial_URI).
(** httpolice/syntax/rfc7231.py:228 *)
Definition Vary : symbol :=
  pivot_ "Vary" ("*" <|> comma_list1 field_name).
(** httpolice/syntax/rfc7231.py:229 *)
Definition Expect : symbol :=
  pivot_ "Expect" (class "CaseInsensitive" <<< literal (s "100-continue")).

(** ** rfc7232.py *)

(** httpolice/syntax/rfc7232.py:10 *)
Definition weak : symbol :=
  auto_ "weak" (FSubst (VBool true) <<< octet 87 * octet 47).
(** httpolice/syntax/rfc7232.py:11 *)
Definition etagc : symbol :=
  auto_ "etagc" (octet 33 <|> octet_range 35 126 <|> obs_text).
(** httpolice/syntax/rfc7232.py:19 *)
Definition opaque_tag : symbol :=
  auto_ "opaque-tag" (FPy PNoBackslashes <<< DQUOTE + string_ etagc + DQUOTE).
(** httpolice/syntax/rfc7232.py:20 *)
Definition entity_tag : symbol :=
  pivot_ "entity-tag" (class "EntityTag" <<< maybe weak (VBool false) * opaque_tag).
(** httpolice/syntax/rfc7232.py:22 *)
Definition ETag : symbol :=
  pivot_ "ETag" (entity_tag).
(** httpolice/syntax/rfc7232.py:23 *)
Definition Last_Modified : symbol :=
  pivot_ "Last-Modified" (HTTP_date).
(** httpolice/syntax/rfc7232.py:25 *)
Definition If_Match : symbol :=
  pivot_ "If-Match" ("*" <|> comma_list1 entity_tag).
(** httpolice/syntax/rfc7232.py:26 *)
Definition If_None_Match : symbol :=
  pivot_ "If-None-Match" ("*" <|> comma_list1 entity_tag).
(** httpolice/syntax/rfc7232.py:27 *)
Definition If_Modified_Since : symbol :=
  pivot_ "If-Modified-Since" (HTTP_date).
(** httpolice/syntax/rfc7232.py:28 *)
Definition If_Unmodified_Since : symbol :=
  pivot_ "If-Unmodified-Since" (HTTP_date).

(** ** rfc7233.py *)

(** httpolice/syntax/rfc7233.py:12 *)
Definition bytes_unit : symbol :=
  auto_ "bytes-unit" (class "RangeUnit" <<< literal (s "bytes")).
(** httpolice/syntax/rfc7233.py:13 *)
Definition other_range_unit : symbol :=
  auto_ "other-range-unit" (class "RangeUnit" <<< token__excluding ["bytes"]).
(** httpolice/syntax/rfc7233.py:14 *)
Definition range_unit : symbol :=
  pivot_ "range-unit" (bytes_unit <|> other_range_unit).
(** httpolice/syntax/rfc7233.py:15-16 *)
Definition acceptable_ranges : symbol :=
  pivot_ "acceptable-ranges" (class "CaseInsensitive" <<< literal (s "none") <|> comma_list1
  range_unit).
(** httpolice/syntax/rfc7233.py:17 *)
Definition Accept_Ranges : symbol :=
  pivot_ "Accept-Ranges" (acceptable_ranges).
(** httpolice/syntax/rfc7233.py:25 *)
Definition first_byte_pos : symbol :=
  auto_ "first-byte-pos" (FInt <<< string1 DIGIT).
(** httpolice/syntax/rfc7233.py:26 *)
Definition last_byte_pos : symbol :=
  auto_ "last-byte-pos" (FInt <<< string1 DIGIT).
(** httpolice/syntax/rfc7233.py:27-28 *)
Definition byte_range_spec : symbol :=
  pivot_ "byte-range-spec" (FPy PWellFormed1 <<< (first_byte_pos * skip "-" * maybe_
  last_byte_pos)).
(** httpolice/syntax/rfc7233.py:30 *)
Definition suffix_length : symbol :=
  auto_ "suffix-length" (FInt <<< string1 DIGIT).
(** httpolice/syntax/rfc7233.py:31-32 *)
Definition suffix_byte_range_spec : symbol :=
  pivot_ "suffix-byte-range-spec" (FPy PSuffixRange <<< skip "-" * suffix_length).
(** httpolice/syntax/rfc7233.py:34 *)
Definition byte_range_set : symbol :=
  auto_ "byte-range-set" (comma_list1 (byte_range_spec <|> suffix_byte_range_spec)).
(** httpolice/syntax/rfc7233.py:35-36 *)
Definition byte_ranges_specifier : symbol :=
  pivot_ "byte-ranges-specifier" (class "RangeSpecifier" <<< (bytes_unit * skip "=" *
  byte_range_set)).
(** httpolice/syntax/rfc7233.py:38 *)
Definition other_range_set : symbol :=
  auto_ "other-range-set" (string1 VCHAR).
(** httpolice/syntax/rfc7233.py:39-40 *)
Definition other_ranges_specifier : symbol :=
  pivot_ "other-ranges-specifier" (class "RangeSpecifier" <<< (other_range_unit * skip "=" *
  other_range_set)).
(** httpolice/syntax/rfc7233.py:42 *)
Definition Range : symbol :=
  pivot_ "Range" (byte_ranges_specifier <|> other_ranges_specifier).
(** httpolice/syntax/rfc7233.py:44 *)
Definition byte_range : symbol :=
  auto_ "byte-range" (first_byte_pos * skip "-" * last_byte_pos).
(** httpolice/syntax/rfc7233.py:45 *)
Definition complete_length : symbol :=
  auto_ "complete-length" (FInt <<< string1 DIGIT).
(** httpolice/syntax/rfc7233.py:46-48 *)
Definition byte_range_resp : symbol :=
  pivot_ "byte-range-resp" (byte_range * skip "/" * (complete_length <|> FSubst VNone <<< literal
  (s "*"))).
(** httpolice/syntax/rfc7233.py:50-51 *)
Definition unsatisfied_range : symbol :=
  pivot_ "unsatisfied-range" ((FSubst VNone <<< literal (s "*/")) * complete_length).
(** httpolice/syntax/rfc7233.py:62-63 *)
Definition byte_content_range : symbol :=
  pivot_ "byte-content-range" (FPy PWellFormed2 <<< (class "ContentRange" <<< (bytes_unit * skip SP
  * (byte_range_resp <|> unsatisfied_range)))).
(** httpolice/syntax/rfc7233.py:65 *)
Definition other_range_resp : symbol :=
  pivot_ "other-range-resp" (string_ CHAR).
(** httpolice/syntax/rfc7233.py:66-67 *)
Definition other_content_range : symbol :=
  pivot_ "other-content-range" (class "ContentRange" <<< (other_range_unit * skip SP *
  other_range_resp)).
(** httpolice/syntax/rfc7233.py:69 *)
Definition Content_Range : symbol :=
  pivot_ "Content-Range" (byte_content_range <|> other_content_range).
(** httpolice/syntax/rfc7233.py:71 *)
Definition If_Range : symbol :=
  pivot_ "If-Range" (entity_tag <|> HTTP_date).

(** ** rfc7234.py *)

(** httpolice/syntax/rfc7234.py:13 *)
Definition delta_seconds : symbol :=
  pivot_ "delta-seconds" (FInt <<< string1 DIGIT).
(** httpolice/syntax/rfc7234.py:14 *)
Definition Age : symbol :=
  pivot_ "Age" (delta_seconds).
(** httpolice/syntax/rfc7234.py:16-18 *)
Definition cache_directive : symbol :=
  pivot_ "cache-directive" (class "Parametrized" <<< ((class "CacheDirective" <<< token) * maybe_
  (skip "=" * (mark (s "token") token <|> mark (s "quoted-string") quoted_string)))).
(** httpolice/syntax/rfc7234.py:19 *)
Definition Cache_Control : symbol :=
  pivot_ "Cache-Control" (comma_list1 cache_directive).
(** httpolice/syntax/rfc7234.py:22 *)
Definition no_cache : symbol :=
  pivot_ "no-cache" (comma_list field_name).
(** httpolice/syntax/rfc7234.py:23 *)
Definition private : symbol :=
  pivot_ "private" (comma_list field_name).
(** httpolice/syntax/rfc7234.py:25 *)
Definition Expires : symbol :=
  pivot_ "Expires" (HTTP_date).
(** httpolice/syntax/rfc7234.py:27-31 *)
Definition extension_pragma (exclude_no_cache : bool) : symbol :=
  seal (s "extension-pragma") true (class "Parametrized" <<< ((if exclude_no_cache then
  token__excluding ["no-cache"] else token) * maybe_ (skip "=" * (token <|> quoted_string)))).
(** httpolice/syntax/rfc7234.py:33-34 *)
Definition pragma_directive : symbol :=
  pivot_ "pragma-directive" (class "CaseInsensitive" <<< literal (s "no-cache") <|>
  extension_pragma true).
(** httpolice/syntax/rfc7234.py:35 *)
Definition Pragma : symbol :=
  pivot_ "Pragma" (comma_list1 pragma_directive).
(** httpolice/syntax/rfc7234.py:37 *)
Definition warn_code : symbol :=
  pivot_ "warn-code" (class "WarnCode" <<< string_times_ 3 3 DIGIT).
(** httpolice/syntax/rfc7234.py:38 *)
Definition warn_agent : symbol :=
  pivot_ "warn-agent" (host + maybe_str (":" + port) <|> pseudonym).
(** httpolice/syntax/rfc7234.py:39 *)
Definition warn_text : symbol :=
  pivot_ "warn-text" (quoted_string).
(** httpolice/syntax/rfc7234.py:40 *)
Definition warn_date : symbol :=
  pivot_ "warn-date" (skip DQUOTE * HTTP_date * skip DQUOTE).
(** httpolice/syntax/rfc7234.py:41-44 *)
Definition warning_value : symbol :=
  pivot_ "warning-value" (class "WarningValue" <<< (warn_code * skip SP * warn_agent * skip SP *
  warn_text * maybe_ (skip SP * warn_date))).
(** httpolice/syntax/rfc7234.py:45 *)
Definition Warning_ : symbol :=
  pivot_ "Warning" (comma_list1 warning_value).

(** ** rfc7235.py *)

(** httpolice/syntax/rfc7235.py:11 *)
Definition auth_scheme : symbol :=
  pivot_ "auth-scheme" (class "AuthScheme" <<< token).
(** httpolice/syntax/rfc7235.py:12-13 *)
Definition token68 : symbol :=
  pivot_ "token68" (string1 (ALPHA <|> DIGIT <|> "-" <|> "." <|> "_" <|> "~" <|> "+" <|> "/") +
  string_ "=").
(** httpolice/syntax/rfc7235.py:22-24 *)
Definition auth_param : symbol :=
  pivot_ "auth-param" (FPy PCheckRealm <<< ((class "CaseInsensitive" <<< token) * skip (BWS * "=" *
  BWS) * (mark (s "token") token <|> mark (s "quoted-string") quoted_string))).
(** httpolice/syntax/rfc7235.py:26-30 *)
Definition challenge : symbol :=
  auto_ "challenge" (class "Parametrized" <<< (auth_scheme * maybe (skip (string1 SP) * (token68
  <|> class "MultiDict" <<< comma_list auth_param)) (VObj (s "MultiDict") [VList []]))).
(** httpolice/syntax/rfc7235.py:32 *)
Definition WWW_Authenticate : symbol :=
  pivot_ "WWW-Authenticate" (comma_list1 challenge).
(** httpolice/syntax/rfc7235.py:33 *)
Definition Proxy_Authenticate : symbol :=
  pivot_ "Proxy-Authenticate" (comma_list1 challenge).
(** httpolice/syntax/rfc7235.py:35-39 *)
Definition credentials : symbol :=
  auto_ "credentials" (class "Parametrized" <<< (auth_scheme * maybe (skip (string1 SP) * (token68
  <|> class "MultiDict" <<< comma_list auth_param)) (VObj (s "MultiDict") [VList []]))).
(** httpolice/syntax/rfc7235.py:41 *)
Definition Authorization : symbol :=
  pivot_ "Authorization" (credentials).
(** httpolice/syntax/rfc7235.py:42 *)
Definition Proxy_Authorization : symbol :=
  pivot_ "Proxy-Authorization" (credentials).

(** ** rfc2616.py *)

(** httpolice/syntax/rfc2616.py:6 *)
Definition LOALPHA : symbol :=
  auto_ "LOALPHA" (octet_range 97 122).
(** httpolice/syntax/rfc2616.py:8 *)
Definition value : symbol :=
  auto_ "value" (token <|> quoted_string).

(** ** rfc8187.py *)

(** httpolice/syntax/rfc8187.py:12-14 *)
Definition attr_char : symbol :=
  auto_ "attr-char" (ALPHA <|> DIGIT <|> "!" <|> "#" <|> "$" <|> "&" <|> "+" <|> "-" <|> "." <|>
  "^" <|> "_" <|> "`" <|> "|" <|> "~").
(** httpolice/syntax/rfc8187.py:15 *)
Definition parmname : symbol :=
  pivot_ "parmname" (string_ attr_char).
(** httpolice/syntax/rfc8187.py:18-20 *)
Definition mime_charsetc : symbol :=
  auto_ "mime-charsetc" (ALPHA <|> DIGIT <|> "!" <|> "#" <|> "$" <|> "%" <|> "&" <|> "+" <|> "-"
  <|> "^" <|> "_" <|> "`" <|> "{" <|> "}" <|> "~").
(** httpolice/syntax/rfc8187.py:21 *)
Definition mime_charset : symbol :=
  auto_ "mime-charset" (string1 mime_charsetc).
(** httpolice/syntax/rfc8187.py:22 *)
Definition charset_8187 : symbol :=
  pivot_ "charset" (class "CaseInsensitive" <<< mime_charset).
(** httpolice/syntax/rfc8187.py:24 *)
Definition pct_encoded_8187 : symbol :=
  auto_ "pct-encoded" ("%" + HEXDIG + HEXDIG).
(** httpolice/syntax/rfc8187.py:25-26 *)
Definition value_chars : symbol :=
  auto_ "value-chars" (FPy PPctDecode <<< (FPy PForceBytes <<< string_ (pct_encoded_8187 <|>
  attr_char))).
(** httpolice/syntax/rfc8187.py:39-42 *)
Definition ext_value : symbol :=
  pivot_ "ext-value" (FPy PCheckExtValue <<< (class "ExtValue" <<< (charset_8187 * skip "'" *
  maybe_ Language_Tag * skip "'" * value_chars))).

(** ** rfc6266.py *)

(** httpolice/syntax/rfc6266.py:14 *)
Definition disposition_type : symbol :=
  pivot_ "disposition-type" (class "CaseInsensitive" <<< token).
(** httpolice/syntax/rfc6266.py:16-20 *)
Definition filename_parm : symbol :=
  pivot_ "filename-parm" ((class "CaseInsensitive" <<< literal (s "filename")) * skip (OWS * "=" *
  OWS) * value <|> (class "CaseInsensitive" <<< literal (s "filename*")) * skip (OWS * "=" * OWS) *
  ext_value).
(** httpolice/syntax/rfc6266.py:26-28 *)
Definition disp_ext_parm : symbol :=
  pivot_ "disp-ext-parm" ((class "CaseInsensitive" <<< token__excluding ["filename"; "filename*"])
  * skip (OWS * "=" * OWS) * value).
(** httpolice/syntax/rfc6266.py:30 *)
Definition disposition_parm : symbol :=
  auto_ "disposition-parm" (filename_parm <|> disp_ext_parm).
(** httpolice/syntax/rfc6266.py:32-34 *)
Definition content_disposition : symbol :=
  pivot_ "content-disposition" (class "Parametrized" <<< (disposition_type * (class "MultiDict" <<<
  many (skip (OWS * ";" * OWS) * disposition_parm)))).

(** ** rfc5789.py *)

(** httpolice/syntax/rfc5789.py:7 *)
Definition Accept_Patch : symbol :=
  pivot_ "Accept-Patch" (comma_list1 media_type).

(** ** rfc6749.py *)

(** httpolice/syntax/rfc6749.py:8-9 *)
Definition NQSCHAR : symbol :=
  auto_ "NQSCHAR" (octet_range 32 33 <|> octet_range 35 91 <|> octet_range 93 126).
(** httpolice/syntax/rfc6749.py:10-11 *)
Definition NQCHAR : symbol :=
  auto_ "NQCHAR" (octet 33 <|> octet_range 35 91 <|> octet_range 93 126).
(** httpolice/syntax/rfc6749.py:13 *)
Definition scope_token : symbol :=
  pivot_ "scope-token" (string1 NQCHAR).
(** httpolice/syntax/rfc6749.py:14 *)
Definition scope : symbol :=
  pivot_ "scope" (modl scope_token (many (skip SP * scope_token))).
(** httpolice/syntax/rfc6749.py:16 *)
Definition error : symbol :=
  pivot_ "error" (string1 NQSCHAR).
(** httpolice/syntax/rfc6749.py:17 *)
Definition error_description : symbol :=
  pivot_ "error-description" (string1 NQSCHAR).
(** httpolice/syntax/rfc6749.py:18 *)
Definition error_uri : symbol :=
  pivot_ "error-uri" (URI_reference).

(** ** rfc6797.py *)

(** httpolice/syntax/rfc6797.py:11 *)
Definition directive_name : symbol :=
  auto_ "directive-name" (class "HSTSDirective" <<< token).
(** httpolice/syntax/rfc6797.py:12 *)
Definition directive_value : symbol :=
  auto_ "directive-value" (token <|> quoted_string).
(** httpolice/syntax/rfc6797.py:13-14 *)
Definition directive : symbol :=
  pivot_ "directive" (class "Parametrized" <<< (directive_name * maybe_ (skip (OWS * "=" * OWS) *
  directive_value))).
(** httpolice/syntax/rfc6797.py:19-20 *)
Definition Strict_Transport_Security : symbol :=
  pivot_ "Strict-Transport-Security" (FPy PHSTSCollect <<< modl (maybe_ directive) (many (skip (OWS
  * ";" * OWS) * maybe_ directive))).
(** httpolice/syntax/rfc6797.py:22 *)
Definition max_age_value : symbol :=
  pivot_ "max-age-value" (FInt <<< string1 DIGIT).

(** ** rfc6838.py *)

(** httpolice/syntax/rfc6838.py:6 *)
Definition restricted_name_first : symbol :=
  auto_ "restricted-name-first" (ALPHA <|> DIGIT).
(** httpolice/syntax/rfc6838.py:7-9 *)
Definition restricted_name_chars : symbol :=
  auto_ "restricted-name-chars" (ALPHA <|> DIGIT <|> "!" <|> "#" <|> "$" <|> "&" <|> "-" <|> "^"
  <|> "_" <|> "." <|> "+").
(** httpolice/syntax/rfc6838.py:10-11 *)
Definition restricted_name : symbol :=
  auto_ "restricted-name" (restricted_name_first + string_times_ 0 126 restricted_name_chars).
(** httpolice/syntax/rfc6838.py:13 *)
Definition type_name : symbol :=
  auto_ "type-name" (restricted_name).
(** httpolice/syntax/rfc6838.py:14 *)
Definition subtype_name : symbol :=
  auto_ "subtype-name" (restricted_name).

(** ** rfc7239.py *)

(** httpolice/syntax/rfc7239.py:14 *)
Definition obfnode : symbol :=
  pivot_ "obfnode" ("_" + string1 (ALPHA <|> DIGIT <|> "." <|> "_" <|> "-")).
(** httpolice/syntax/rfc7239.py:15-17 *)
Definition nodename : symbol :=
  pivot_ "nodename" (IPv4address <|> skip "[" * IPv6address * skip "]" <|> "unknown" <|> obfnode).
(** httpolice/syntax/rfc7239.py:19 *)
Definition port_7239 : symbol :=
  pivot_ "port" (FInt <<< string_times_ 1 5 DIGIT).
(** httpolice/syntax/rfc7239.py:20 *)
Definition obfport : symbol :=
  pivot_ "obfport" ("_" + string1 (ALPHA <|> DIGIT <|> "." <|> "_" <|> "-")).
(** httpolice/syntax/rfc7239.py:21 *)
Definition node_port : symbol :=
  pivot_ "node-port" (port_7239 <|> obfport).
(** httpolice/syntax/rfc7239.py:23 *)
Definition node_7239 : symbol :=
  pivot_ "node" (nodename * maybe_ (skip ":" * node_port)).
(** httpolice/syntax/rfc7239.py:25 *)
Definition value_7239 : symbol :=
  pivot_ "value" (token <|> quoted_string).
(** httpolice/syntax/rfc7239.py:26 *)
Definition forwarded_pair : symbol :=
  pivot_ "forwarded-pair" ((class "ForwardedParam" <<< token) * skip "=" * value_7239).
(** httpolice/syntax/rfc7239.py:28-29 *)
Definition forwarded_element : symbol :=
  pivot_ "forwarded-element" (FPy PRemoveEmpty <<< modl (maybe_ forwarded_pair) (many (skip ";" *
  maybe_ forwarded_pair))).
(** httpolice/syntax/rfc7239.py:31 *)
Definition Forwarded : symbol :=
  pivot_ "Forwarded" (comma_list1 forwarded_element).

(** ** rfc7240.py *)

(** httpolice/syntax/rfc7240.py:16-23 *)
Definition preference_parameter (head : bool) : symbol :=
  let name_cls := if head then "Preference" else "CaseInsensitive" in seal (s
  "preference-parameter") true (FPy PNormalizeEmptyValue <<< (parameter [] name_cls <|> class
  name_cls <<< token)).
(** httpolice/syntax/rfc7240.py:25-28 *)
Definition preference : symbol :=
  seal (s "preference") true (class "Parametrized" <<< (preference_parameter true * many (skip (OWS
  * ";") * maybe_ (skip OWS * preference_parameter false)))).
(** httpolice/syntax/rfc7240.py:30 *)
Definition Prefer : symbol :=
  pivot_ "Prefer" (comma_list1 preference).
(** httpolice/syntax/rfc7240.py:32 *)
Definition Preference_Applied : symbol :=
  pivot_ "Preference-Applied" (comma_list1 (preference_parameter true)).
(** httpolice/syntax/rfc7240.py:35 *)
Definition return_ : symbol :=
  pivot_ "return" (class "CaseInsensitive" <<< (literal (s "representation") <|> "minimal")).
(** httpolice/syntax/rfc7240.py:36 *)
Definition wait : symbol :=
  auto_ "wait" (delay_seconds).
(** httpolice/syntax/rfc7240.py:37 *)
Definition handling : symbol :=
  pivot_ "handling" (class "CaseInsensitive" <<< (literal (s "strict") <|> "lenient")).

(** ** rfc7540.py *)

(** httpolice/syntax/rfc7540.py:6 *)
Definition HTTP2_Settings : symbol :=
  pivot_ "HTTP2-Settings" (token68).

(** ** rfc7838.py *)

(** httpolice/syntax/rfc7838.py:17 *)
Definition clear : symbol :=
  pivot_ "clear" (case_sens (s "clear")).
(** httpolice/syntax/rfc7838.py:35 *)
Definition protocol_id : symbol :=
  pivot_ "protocol-id" (FPy PCheckProtocolId <<< token).
(** httpolice/syntax/rfc7838.py:42 *)
Definition alt_authority : symbol :=
  pivot_ "alt-authority" (FPy PCheckAltAuthority <<< quoted_string).
(** httpolice/syntax/rfc7838.py:44 *)
Definition alternative : symbol :=
  pivot_ "alternative" (protocol_id * skip "=" * alt_authority).
(** httpolice/syntax/rfc7838.py:45-46 *)
Definition parameter_7838 : symbol :=
  pivot_ "parameter" ((class "AltSvcParam" <<< token) * skip "=" * (token <|> quoted_string)).
(** httpolice/syntax/rfc7838.py:47-49 *)
Definition alt_value : symbol :=
  pivot_ "alt-value" (class "Parametrized" <<< (alternative * (class "MultiDict" <<< many (skip
  (OWS * ";" * OWS) * parameter_7838)))).
(** httpolice/syntax/rfc7838.py:51 *)
Definition Alt_Svc : symbol :=
  pivot_ "Alt-Svc" (clear <|> comma_list1 alt_value).
(** httpolice/syntax/rfc7838.py:53 *)
Definition ma : symbol :=
  pivot_ "ma" (delta_seconds).
(** httpolice/syntax/rfc7838.py:54 *)
Definition persist : symbol :=
  pivot_ "persist" (FSubst (VBool true) <<< literal (s "1")).
(** httpolice/syntax/rfc7838.py:56 *)
Definition Alt_Used : symbol :=
  pivot_ "Alt-Used" (host + maybe_str (":" + port)).

(** ** rfc8288.py *)

(** httpolice/syntax/rfc8288.py:46-49 *)
Definition link_param : symbol :=
  pivot_ "link-param" ((class "CaseInsensitive" <<< token) * skip BWS * maybe_ (skip (literal (s
  "=") * BWS) * (mark (s "token") token <|> mark (s "quoted-string") quoted_string))).
(** httpolice/syntax/rfc8288.py:51-53 *)
Definition link_value : symbol :=
  pivot_ "link-value" (class "Parametrized" <<< (skip "<" * URI_reference * skip ">" * (FPy
  PProcessParams <<< many (skip (OWS * ";" * OWS) * link_param)))).
(** httpolice/syntax/rfc8288.py:55 *)
Definition Link : symbol :=
  pivot_ "Link" (comma_list link_value).
(** httpolice/syntax/rfc8288.py:58 *)
Definition anchor : symbol :=
  auto_ "anchor" (URI_reference).
(** httpolice/syntax/rfc8288.py:60-61 *)
Definition reg_rel_type : symbol :=
  auto_ "reg-rel-type" (class "CaseInsensitive" <<< (LOALPHA + string_ (LOALPHA <|> DIGIT <|> "."
  <|> "-"))).
(** httpolice/syntax/rfc8288.py:62 *)
Definition ext_rel_type : symbol :=
  auto_ "ext-rel-type" (URI).
(** httpolice/syntax/rfc8288.py:63 *)
Definition relation_type : symbol :=
  pivot_ "relation-type" (reg_rel_type <|> ext_rel_type).
(** httpolice/syntax/rfc8288.py:64 *)
Definition rel : symbol :=
  auto_ "rel" (modl relation_type (many (skip (string1 SP) * relation_type))).
(** httpolice/syntax/rfc8288.py:66 *)
Definition hreflang : symbol :=
  auto_ "hreflang" (Language_Tag).
(** httpolice/syntax/rfc8288.py:68-69 *)
Definition type_8288 : symbol :=
  auto_ "type" (FPy PCheckMediaType <<< (class "MediaType" <<< type_name + "/" + subtype_name)).

(** ** internal.py *)

(** httpolice/syntax/internal.py:7 *)
Definition notice_id : symbol :=
  pivot_ "notice-id" (FInt <<< string1 DIGIT).
(** httpolice/syntax/internal.py:8 *)
Definition resp : symbol :=
  pivot_ "resp" (FSubst (VBool true) <<< literal (s "resp")).
(** httpolice/syntax/internal.py:9 *)
Definition HTTPolice_Silence : symbol :=
  pivot_ "HTTPolice-Silence" (comma_list (notice_id * maybe_ (skip RWS * resp))).

(** ** w3c_ldp.py *)

(** httpolice/syntax/w3c_ldp.py:7 *)
Definition Accept_Post : symbol :=
  pivot_ "Accept-Post" (comma_list (media_range false)).

(** ** whatwg_fetch.py *)

(** httpolice/syntax/whatwg_fetch.py:12 *)
Definition origin : symbol :=
  pivot_ "origin" (scheme + "://" + host + maybe_str (":" + port)).
(** httpolice/syntax/whatwg_fetch.py:13 *)
Definition origin_or_null : symbol :=
  pivot_ "origin-or-null" (origin <|> case_sens (s "null")).
(** httpolice/syntax/whatwg_fetch.py:14 *)
Definition Origin : symbol :=
  pivot_ "Origin" (origin_or_null).
(** httpolice/syntax/whatwg_fetch.py:16 *)
Definition Access_Control_Request_Method : symbol :=
  pivot_ "Access-Control-Request-Method" (method).
(** httpolice/syntax/whatwg_fetch.py:17 *)
Definition Access_Control_Request_Headers : symbol :=
  pivot_ "Access-Control-Request-Headers" (comma_list1 field_name).
(** httpolice/syntax/whatwg_fetch.py:18 *)
Definition wildcard : symbol :=
  auto_ "wildcard" (literal (s "*")).
(** httpolice/syntax/whatwg_fetch.py:19 *)
Definition Access_Control_Allow_Origin : symbol :=
  pivot_ "Access-Control-Allow-Origin" (origin_or_null <|> wildcard).
(** httpolice/syntax/whatwg_fetch.py:20 *)
Definition Access_Control_Allow_Credentials : symbol :=
  pivot_ "Access-Control-Allow-Credentials" (case_sens (s "true")).
(** httpolice/syntax/whatwg_fetch.py:21 *)
Definition Access_Control_Expose_Headers : symbol :=
  pivot_ "Access-Control-Expose-Headers" (comma_list field_name).
(** httpolice/syntax/whatwg_fetch.py:22 *)
Definition Access_Control_Max_Age : symbol :=
  pivot_ "Access-Control-Max-Age" (delta_seconds).
(** httpolice/syntax/whatwg_fetch.py:23 *)
Definition Access_Control_Allow_Methods : symbol :=
  pivot_ "Access-Control-Allow-Methods" (comma_list method).
(** httpolice/syntax/whatwg_fetch.py:24 *)
Definition Access_Control_Allow_Headers : symbol :=
  pivot_ "Access-Control-Allow-Headers" (comma_list field_name).
(** httpolice/syntax/whatwg_fetch.py:26 *)
Definition X_Content_Type_Options : symbol :=
  pivot_ "X-Content-Type-Options" (literal (s "nosniff")).
(** httpolice/syntax/whatwg_fetch.py:28-29 *)
Definition Cross_Origin_Resource_Policy : symbol :=
  pivot_ "Cross-Origin-Resource-Policy" (case_sens (s "same-origin") <|> case_sens (s "same-site")).

(** All the symbols that httpolice.syntax defines at the top level of its
    modules. *)
Definition all_symbols : list symbol :=
  [ALPHA; CHAR; CTL; DIGIT; DQUOTE; HEXDIG; HTAB; SP; VCHAR; pct_encoded; sub_delims; unreserved;
  pchar; segment; segment_nz; segment_nz_nc; scheme; userinfo; dec_octet; IPv4address; h16; ls32;
  IPv6address; IPvFuture; ZoneID; IPv6addrz; IP_literal; reg_name; host; port; authority;
  path_abempty; path_absolute; path_noscheme; path_rootless; path_empty; hier_part; query;
  fragment; absolute_URI; relative_part; URI; relative_ref; URI_reference; obs_text; tchar; token;
  qdtext; quoted_string; ctext; OWS; RWS; BWS; method; absolute_path; partial_URI; origin_form;
  absolute_form; authority_form; asterisk_form; request_target; reason_phrase; field_name;
  Transfer_Encoding; rank; t_ranking; t_codings; TE; Trailer; Host; connection_option; Connection;
  protocol_name; protocol_version; protocol; Upgrade; received_protocol; pseudonym; received_by;
  Via; Content_Length; alphanum_4647; language_range; singleton; alphanum; irregular; regular;
  grandfathered; privateuse; extlang; language_5646; script; region; variant; extension; langtag;
  Language_Tag; type_; subtype; media_type; content_coding; product_version; product; User_Agent;
  Server; day_name; day; month; year; date1; hour; minute; second; time_of_day; GMT; IMF_fixdate;
  day_name_l; date2; rfc850_date; date3; asctime_date; obs_date; HTTP_date; qvalue; weight;
  accept_ext; accept_params; Accept; charset; Accept_Charset; codings; Accept_Encoding;
  Accept_Language; delay_seconds; Retry_After; Allow; Content_Encoding; Content_Language;
  Content_Location; Content_Type; Date; Location; Max_Forwards; Referer; Vary; Expect; weak; etagc;
  opaque_tag; entity_tag; ETag; Last_Modified; If_Match; If_None_Match; If_Modified_Since;
  If_Unmodified_Since; bytes_unit; other_range_unit; range_unit; acceptable_ranges; Accept_Ranges;
  first_byte_pos; last_byte_pos; byte_range_spec; suffix_length; suffix_byte_range_spec;
  byte_range_set; byte_ranges_specifier; other_range_set; other_ranges_specifier; Range;
  byte_range; complete_length; byte_range_resp; unsatisfied_range; byte_content_range;
  other_range_resp; other_content_range; Content_Range; If_Range; delta_seconds; Age;
  cache_directive; Cache_Control; no_cache; private; Expires; pragma_directive; Pragma; warn_code;
  warn_agent; warn_text; warn_date; warning_value; Warning_; auth_scheme; token68; auth_param;
  challenge; WWW_Authenticate; Proxy_Authenticate; credentials; Authorization; Proxy_Authorization;
  LOALPHA; value; attr_char; parmname; mime_charsetc; mime_charset; charset_8187; pct_encoded_8187;
  value_chars; ext_value; disposition_type; filename_parm; disp_ext_parm; disposition_parm;
  content_disposition; Accept_Patch; NQSCHAR; NQCHAR; scope_token; scope; error; error_description;
  error_uri; directive_name; directive_value; directive; Strict_Transport_Security; max_age_value;
  restricted_name_first; restricted_name_chars; restricted_name; type_name; subtype_name; obfnode;
  nodename; port_7239; obfport; node_port; node_7239; value_7239; forwarded_pair;
  forwarded_element; Forwarded; preference; Prefer; Preference_Applied; return_; wait; handling;
  HTTP2_Settings; clear; protocol_id; alt_authority; alternative; parameter_7838; alt_value;
  Alt_Svc; ma; persist; Alt_Used; link_param; link_value; Link; anchor; reg_rel_type; ext_rel_type;
  relation_type; rel; hreflang; type_8288; notice_id; resp; HTTPolice_Silence; Accept_Post; origin;
  origin_or_null; Origin; Access_Control_Request_Method; Access_Control_Request_Headers; wildcard;
  Access_Control_Allow_Origin; Access_Control_Allow_Credentials; Access_Control_Expose_Headers;
  Access_Control_Max_Age; Access_Control_Allow_Methods; Access_Control_Allow_Headers;
  X_Content_Type_Options; Cross_Origin_Resource_Policy].
