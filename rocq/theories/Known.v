(** Generated from httpolice/known/*.csv: what the checks look up about header
    names and about the names of arguments.  Columns that are only displayed
    (titles, citations) are left out. *)
From Coq Require Import String.
From Verif Require Import Base Earley Grammar Syntax.
Local Open Scope N_scope.
Local Open Scope list_scope.
Unset Strict Implicit.

(** [HeaderRule] (httpolice/known/__init__.py:200-203). *)
Inductive header_rule := RSingle | RMulti | RSpecial.
(** A row of header.csv as processed by [HeaderKnowledge]
    (httpolice/known/__init__.py:205-239).  Truth values that are not given are
    [None]; those only tested for truth are [bool]. *)
Record header_info := HInfo {
  hk_key : str;
  hk_rule : option header_rule;
  hk_syntax : option symbol;
  hk_bad_for_connection : bool;
  hk_bad_for_trailer : bool;
  hk_quoted_comma_bad : bool;
  hk_quoted_semicolon_bad : bool;
  hk_for_request : option bool;
  hk_for_response : option bool;
  hk_deprecated : bool;
  hk_precondition : bool;
  hk_proactive_conneg : bool;
  hk_representation_metadata : bool
}.
(** httpolice/known/header.csv *)
Definition header_table : list header_info := [
  HInfo (s "A-IM") None None false false false false None None false false false false;
  HInfo (s "ALPN") None None false false false false None None false false false false;
  HInfo (s "AMP-Cache-Transform") None None false false false false None None false false false false;
  HInfo (s "Accept") (Some RMulti) (Some Accept) false false true true (Some true) (Some false) false false true false;
  HInfo (s "Accept-Additions") None None false false false false None None false false false false;
  HInfo (s "Accept-Charset") (Some RMulti) (Some Accept_Charset) false false false false (Some true) (Some false) false false true false;
  HInfo (s "Accept-Datetime") None None false false false false None None false false false false;
  HInfo (s "Accept-Encoding") (Some RMulti) (Some Accept_Encoding) false false false false (Some true) (Some true) false false true false;
  HInfo (s "Accept-Features") None None false false false false None None false false false false;
  HInfo (s "Accept-Language") (Some RMulti) (Some Accept_Language) false false false false (Some true) (Some false) false false true false;
  HInfo (s "Accept-Patch") (Some RMulti) (Some Accept_Patch) false false true true (Some false) (Some true) false false false false;
  HInfo (s "Accept-Post") (Some RMulti) (Some Accept_Post) false false true true (Some false) (Some true) false false false false;
  HInfo (s "Accept-Ranges") (Some RMulti) (Some Accept_Ranges) false false false false (Some false) (Some true) false false false false;
  HInfo (s "Access-Control") None None false false false false None None true false false false;
  HInfo (s "Access-Control-Allow-Credentials") (Some RSingle) (Some Access_Control_Allow_Credentials) true true false false (Some false) (Some true) false false false false;
  HInfo (s "Access-Control-Allow-Headers") (Some RMulti) (Some Access_Control_Allow_Headers) true true false false (Some false) (Some true) false false false false;
  HInfo (s "Access-Control-Allow-Methods") (Some RMulti) (Some Access_Control_Allow_Methods) true true false false (Some false) (Some true) false false false false;
  HInfo (s "Access-Control-Allow-Origin") (Some RSingle) (Some Access_Control_Allow_Origin) true true false false (Some false) (Some true) false false false false;
  HInfo (s "Access-Control-Expose-Headers") (Some RMulti) (Some Access_Control_Expose_Headers) true true false false (Some false) (Some true) false false false false;
  HInfo (s "Access-Control-Max-Age") (Some RSingle) (Some Access_Control_Max_Age) true true false false (Some false) (Some true) false false false false;
  HInfo (s "Access-Control-Request-Headers") (Some RMulti) (Some Access_Control_Request_Headers) true true false false (Some true) (Some false) false false false false;
  HInfo (s "Access-Control-Request-Method") (Some RSingle) (Some Access_Control_Request_Method) true true false false (Some true) (Some false) false false false false;
  HInfo (s "Age") (Some RSingle) (Some Age) true true false false (Some false) (Some true) false false false false;
  HInfo (s "Allow") (Some RMulti) (Some Allow) false false false false (Some false) (Some true) false false false false;
  HInfo (s "Alt-Svc") (Some RSpecial) (Some Alt_Svc) false false false false (Some false) (Some true) false false false false;
  HInfo (s "Alt-Used") (Some RSingle) (Some Alt_Used) false true false false (Some true) (Some false) false false false false;
  HInfo (s "Alternates") None None false false false false None None false false false false;
  HInfo (s "Apply-To-Redirect-Ref") None None false false false false None None false false false false;
  HInfo (s "Authentication-Control") None None false false false false None None false false false false;
  HInfo (s "Authentication-Info") None None false false false false None None false false false false;
  HInfo (s "Authorization") (Some RSingle) (Some Authorization) true true false false (Some true) (Some false) false false false false;
  HInfo (s "C-Ext") None None false false false false None None false false false false;
  HInfo (s "C-Man") None None false false false false None None false false false false;
  HInfo (s "C-Opt") None None false false false false None None false false false false;
  HInfo (s "C-PEP") None None false false false false None None false false false false;
  HInfo (s "C-PEP-Info") None None false false false false None None false false false false;
  HInfo (s "CDN-Loop") None None false false false false None None false false false false;
  HInfo (s "Cache-Control") (Some RSpecial) (Some Cache_Control) true true false false (Some true) (Some true) false false false false;
  HInfo (s "Cal-Managed-ID") None None false false false false None None false false false false;
  HInfo (s "CalDAV-Timezones") None None false false false false None None false false false false;
  HInfo (s "Close") None None false false false false None None false false false false;
  HInfo (s "Compliance") None None false false false false None None false false false false;
  HInfo (s "Connection") (Some RMulti) (Some Connection) false false false false (Some true) (Some true) false false false false;
  HInfo (s "Content-Base") None None false false false false None None true false false false;
  HInfo (s "Content-Disposition") (Some RSingle) (Some content_disposition) false false false false (Some false) (Some true) false false false true;
  HInfo (s "Content-Encoding") (Some RMulti) (Some Content_Encoding) true true false false None None false false false true;
  HInfo (s "Content-ID") None None false false false false None None false false false false;
  HInfo (s "Content-Language") (Some RMulti) (Some Content_Language) true false false false None None false false false true;
  HInfo (s "Content-Length") (Some RSingle) (Some Content_Length) false true false false (Some true) (Some true) false false false false;
  HInfo (s "Content-Location") (Some RSingle) (Some Content_Location) false false false false None None false false false true;
  HInfo (s "Content-MD5") None None false false false false None None false false false false;
  HInfo (s "Content-Range") (Some RSingle) (Some Content_Range) true true false false (Some false) (Some true) false false false false;
  HInfo (s "Content-Script-Type") None None false false false false None None false false false false;
  HInfo (s "Content-Style-Type") None None false false false false None None false false false false;
  HInfo (s "Content-Transfer-Encoding") None None false false false false None None false false false false;
  HInfo (s "Content-Type") (Some RSingle) (Some Content_Type) false true false true None None false false false true;
  HInfo (s "Content-Version") None None false false false false None None false false false false;
  HInfo (s "Cookie") None None false false false false None None false false false false;
  HInfo (s "Cookie2") None None false false false false None None true false false false;
  HInfo (s "Cost") None None false false false false None None false false false false;
  HInfo (s "Cross-Origin-Resource-Policy") (Some RSingle) (Some Cross_Origin_Resource_Policy) true false false false (Some false) (Some true) false false false false;
  HInfo (s "DASL") None None false false false false None None false false false false;
  HInfo (s "DAV") None None false false false false None None false false false false;
  HInfo (s "Date") (Some RSingle) (Some Date) false true false false (Some true) (Some true) false false false false;
  HInfo (s "Default-Style") None None false false false false None None false false false false;
  HInfo (s "Delta-Base") None None false false false false None None false false false false;
  HInfo (s "Depth") None None false false false false None None false false false false;
  HInfo (s "Derived-From") None None false false false false None None false false false false;
  HInfo (s "Destination") None None false false false false None None false false false false;
  HInfo (s "Differential-ID") None None false false false false None None false false false false;
  HInfo (s "Digest") None None false false false false None None false false false false;
  HInfo (s "EDIINT-Features") None None false false false false None None false false false false;
  HInfo (s "ETag") (Some RSingle) (Some ETag) true false false false (Some false) (Some true) false false false true;
  HInfo (s "Early-Data") None None false false false false None None false false false false;
  HInfo (s "Expect") (Some RSingle) (Some Expect) false true false false (Some true) (Some false) false false false false;
  HInfo (s "Expires") (Some RSingle) (Some Expires) true true false false (Some false) (Some true) false false false false;
  HInfo (s "Ext") None None false false false false None None false false false false;
  HInfo (s "Forwarded") (Some RSpecial) (Some Forwarded) true false true true (Some true) (Some false) false false false false;
  HInfo (s "From") (Some RSingle) None false false false false (Some true) (Some false) false false false false;
  HInfo (s "GetProfile") None None false false false false None None false false false false;
  HInfo (s "HTTP2-Settings") (Some RSingle) (Some HTTP2_Settings) false false false false (Some true) (Some false) false false false false;
  HInfo (s "HTTPolice-Silence") (Some RMulti) (Some HTTPolice_Silence) false false false false (Some true) (Some true) false false false false;
  HInfo (s "Hobareg") None None false false false false None None false false false false;
  HInfo (s "Host") (Some RSingle) (Some Host) false true false false (Some true) (Some false) false false false false;
  HInfo (s "IM") None None false false false false None None false false false false;
  HInfo (s "If") None None false true false false None None false true false false;
  HInfo (s "If-Match") (Some RMulti) (Some If_Match) false true false false (Some true) (Some false) false true false false;
  HInfo (s "If-Modified-Since") (Some RSingle) (Some If_Modified_Since) false true false false (Some true) (Some false) false true false false;
  HInfo (s "If-None-Match") (Some RMulti) (Some If_None_Match) false true false false (Some true) (Some false) false true false false;
  HInfo (s "If-Range") (Some RSingle) (Some If_Range) false true false false (Some true) (Some false) false false false false;
  HInfo (s "If-Schedule-Tag-Match") None None false true false false None None false true false false;
  HInfo (s "If-Unmodified-Since") (Some RSingle) (Some If_Unmodified_Since) false true false false (Some true) (Some false) false true false false;
  HInfo (s "Include-Referred-Token-Binding-ID") None None false false false false None None false false false false;
  HInfo (s "Keep-Alive") None None false false false false None None false false false false;
  HInfo (s "Label") None None false false false false None None false false false false;
  HInfo (s "Last-Modified") (Some RSingle) (Some Last_Modified) true false false false (Some false) (Some true) false false false true;
  HInfo (s "Link") (Some RMulti) (Some Link) false false true true None (Some true) false false false false;
  HInfo (s "Location") (Some RSingle) (Some Location) false true false false (Some false) (Some true) false false false false;
  HInfo (s "Lock-Token") None None false false false false None None false false false false;
  HInfo (s "MIME-Version") None None false false false false None None false false false false;
  HInfo (s "Man") None None false false false false None None false false false false;
  HInfo (s "Max-Forwards") (Some RSingle) (Some Max_Forwards) false true false false (Some true) (Some false) false false false false;
  HInfo (s "Memento-Datetime") None None false false false false None None false false false false;
  HInfo (s "Message-ID") None None false false false false None None false false false false;
  HInfo (s "Meter") None None false false false false None None false false false false;
  HInfo (s "Method-Check") None None false false false false None None true false false false;
  HInfo (s "Method-Check-Expires") None None false false false false None None true false false false;
  HInfo (s "Negotiate") None None false false false false None None false false false false;
  HInfo (s "Non-Compliance") None None false false false false None None false false false false;
  HInfo (s "Opt") None None false false false false None None false false false false;
  HInfo (s "Optional") None None false false false false None None false false false false;
  HInfo (s "Optional-WWW-Authenticate") None None false false false false None None false false false false;
  HInfo (s "Ordering-Type") None None false false false false None None false false false false;
  HInfo (s "Origin") (Some RSingle) (Some Origin) true true false false (Some true) (Some false) false false false false;
  HInfo (s "Overwrite") None None false false false false None None false true false false;
  HInfo (s "P3P") None None false false false false None None false false false false;
  HInfo (s "PEP") None None false false false false None None false false false false;
  HInfo (s "PICS-Label") None None false false false false None None false false false false;
  HInfo (s "Pep-Info") None None false false false false None None false false false false;
  HInfo (s "Position") None None false false false false None None false false false false;
  HInfo (s "Pragma") (Some RMulti) (Some Pragma) false true false false (Some true) (Some true) false false false false;
  HInfo (s "Prefer") (Some RSpecial) (Some Prefer) false false true true (Some true) (Some false) false false false false;
  HInfo (s "Preference-Applied") (Some RSpecial) (Some Preference_Applied) false false true false (Some false) (Some true) false false false false;
  HInfo (s "ProfileObject") None None false false false false None None false false false false;
  HInfo (s "Protocol") None None false false false false None None false false false false;
  HInfo (s "Protocol-Info") None None false false false false None None false false false false;
  HInfo (s "Protocol-Query") None None false false false false None None false false false false;
  HInfo (s "Protocol-Request") None None false false false false None None false false false false;
  HInfo (s "Proxy-Authenticate") (Some RMulti) (Some Proxy_Authenticate) false false false false (Some false) (Some true) false false false false;
  HInfo (s "Proxy-Authentication-Info") None None false false false false None None false false false false;
  HInfo (s "Proxy-Authorization") (Some RSingle) (Some Proxy_Authorization) false true false false (Some true) (Some false) false false false false;
  HInfo (s "Proxy-Features") None None false false false false None None false false false false;
  HInfo (s "Proxy-Instruction") None None false false false false None None false false false false;
  HInfo (s "Public") None None false false false false None None false false false false;
  HInfo (s "Public-Key-Pins") None None false false false false None None false false false false;
  HInfo (s "Public-Key-Pins-Report-Only") None None false false false false None None false false false false;
  HInfo (s "Range") (Some RSingle) (Some Range) false true false false (Some true) (Some false) false false false false;
  HInfo (s "Redirect-Ref") None None false false false false None None false false false false;
  HInfo (s "Referer") (Some RSingle) (Some Referer) false false false false (Some true) (Some false) false false false false;
  HInfo (s "Referer-Root") None None false false false false None None true false false false;
  HInfo (s "Replay-Nonce") None None false false false false None None false false false false;
  HInfo (s "Resolution-Hint") None None false false false false None None false false false false;
  HInfo (s "Resolver-Location") None None false false false false None None false false false false;
  HInfo (s "Retry-After") (Some RSingle) (Some Retry_After) false true false false (Some false) (Some true) false false false false;
  HInfo (s "SLUG") None None false false false false None None false false false false;
  HInfo (s "Safe") None None false false false false None None false false false false;
  HInfo (s "Schedule-Reply") None None false false false false None None false false false false;
  HInfo (s "Schedule-Tag") None None false false false false None None false false false false;
  HInfo (s "Sec-Token-Binding") None None false false false false None None false false false false;
  HInfo (s "Sec-WebSocket-Accept") None None false false false false None None false false false false;
  HInfo (s "Sec-WebSocket-Extensions") None None false false false false None None false false false false;
  HInfo (s "Sec-WebSocket-Key") None None false false false false None None false false false false;
  HInfo (s "Sec-WebSocket-Protocol") None None false false false false None None false false false false;
  HInfo (s "Sec-WebSocket-Version") None None false false false false None None false false false false;
  HInfo (s "Security-Scheme") None None false false false false None None false false false false;
  HInfo (s "Server") (Some RSingle) (Some Server) false false false false (Some false) (Some true) false false false false;
  HInfo (s "Set-Cookie") None None false false false false None None false false false false;
  HInfo (s "Set-Cookie2") None None false false false false None None true false false false;
  HInfo (s "SetProfile") None None false false false false None None false false false false;
  HInfo (s "SoapAction") None None false false false false None None false false false false;
  HInfo (s "Status-URI") None None false false false false None None false false false false;
  HInfo (s "Strict-Transport-Security") (Some RSpecial) (Some Strict_Transport_Security) false false false true (Some false) (Some true) false false false false;
  HInfo (s "SubOK") None None false false false false None None false false false false;
  HInfo (s "Subst") None None false false false false None None false false false false;
  HInfo (s "Sunset") None None false false false false None None false false false false;
  HInfo (s "Surrogate-Capability") None None false false false false None None false false false false;
  HInfo (s "Surrogate-Control") None None false false false false None None false false false false;
  HInfo (s "TCN") None None false false false false None None false false false false;
  HInfo (s "TE") (Some RMulti) (Some TE) false true true true (Some true) (Some false) false false false false;
  HInfo (s "TTL") None None false false false false None None false false false false;
  HInfo (s "Timeout") None None false false false false None None false false false false;
  HInfo (s "Timing-Allow-Origin") None None false false false false None None false false false false;
  HInfo (s "Title") None None false false false false None None false false false false;
  HInfo (s "Topic") None None false false false false None None false false false false;
  HInfo (s "Traceparent") None None false false false false None None false false false false;
  HInfo (s "Tracestate") None None false false false false None None false false false false;
  HInfo (s "Trailer") (Some RMulti) (Some Trailer) false true false false None None false false false false;
  HInfo (s "Transfer-Encoding") (Some RMulti) (Some Transfer_Encoding) false true true true (Some true) (Some true) false false false false;
  HInfo (s "UA-Color") None None false false false false None None false false false false;
  HInfo (s "UA-Media") None None false false false false None None false false false false;
  HInfo (s "UA-Pixels") None None false false false false None None false false false false;
  HInfo (s "UA-Resolution") None None false false false false None None false false false false;
  HInfo (s "UA-Windowpixels") None None false false false false None None false false false false;
  HInfo (s "URI") None None false false false false None None false false false false;
  HInfo (s "Upgrade") (Some RMulti) (Some Upgrade) false false false false (Some true) (Some true) false false false false;
  HInfo (s "Urgency") None None false false false false None None false false false false;
  HInfo (s "User-Agent") (Some RSingle) (Some User_Agent) false false false false (Some true) (Some false) false false false false;
  HInfo (s "Variant-Vary") None None false false false false None None false false false false;
  HInfo (s "Vary") (Some RMulti) (Some Vary) true true false false (Some false) (Some true) false false false false;
  HInfo (s "Version") None None false false false false None None false false false false;
  HInfo (s "Via") (Some RMulti) (Some Via) true false true false (Some true) (Some true) false false false false;
  HInfo (s "WWW-Authenticate") (Some RMulti) (Some WWW_Authenticate) true false false false (Some false) (Some true) false false false false;
  HInfo (s "Want-Digest") None None false false false false None None false false false false;
  HInfo (s "Warning") (Some RMulti) (Some Warning_) true true true false (Some true) (Some true) false false false false;
  HInfo (s "X-ATT-DeviceId") None None false false false false None None false false false false;
  HInfo (s "X-Aspnet-Version") None None false false false false None None false false false false;
  HInfo (s "X-CSRF-Token") None None false false false false None None false false false false;
  HInfo (s "X-CSRFToken") None None false false false false None None false false false false;
  HInfo (s "X-Content-Duration") None None false false false false None None false false false false;
  HInfo (s "X-Content-Security-Policy") None None false false false false None None false false false false;
  HInfo (s "X-Content-Type-Options") (Some RSingle) (Some X_Content_Type_Options) true true false false (Some false) (Some true) false false false false;
  HInfo (s "X-Device-Accept") None None false false false false None None false false false false;
  HInfo (s "X-Device-Accept-Charset") None None false false false false None None false false false false;
  HInfo (s "X-Device-Accept-Encoding") None None false false false false None None false false false false;
  HInfo (s "X-Device-Accept-Language") None None false false false false None None false false false false;
  HInfo (s "X-Device-User-Agent") None None false false false false None None false false false false;
  HInfo (s "X-Firefox-SPDY") None None false false false false None None false false false false;
  HInfo (s "X-Forwarded-For") None None false false false false None None false false false false;
  HInfo (s "X-Forwarded-Host") None None false false false false None None false false false false;
  HInfo (s "X-Forwarded-Proto") None None false false false false None None false false false false;
  HInfo (s "X-Frame-Options") None None false false false false None None false false false false;
  HInfo (s "X-GitHub-Request-ID") None None false false false false None None false false false false;
  HInfo (s "X-HTTP-Method-Override") None None false false false false None None false false false false;
  HInfo (s "X-Powered-By") None None false false false false None None false false false false;
  HInfo (s "X-Real-IP") None None false false false false None None false false false false;
  HInfo (s "X-Requested-With") None None false false false false None None false false false false;
  HInfo (s "X-UA-Compatible") None None false false false false None None false false false false;
  HInfo (s "X-UIDH") None None false false false false None None false false false false;
  HInfo (s "X-Varnish") None None false false false false None None false false false false;
  HInfo (s "X-Wap-Profile") None None false false false false None None false false false false;
  HInfo (s "X-WebKit-CSP") None None false false false false None None false false false false;
  HInfo (s "X-XSRF-Token") None None false false false false None None false false false false;
  HInfo (s "X-XSS-Protection") None None false false false false None None false false false false].

(** [Argument], [ArgumentForm] (httpolice/known/__init__.py:182-185, 280-282). *)
Inductive argument := ArgNo | ArgOptional | ArgRequired.
Inductive argument_form := FormToken | FormQuotedString.
(** A row of a table of names that can have arguments. *)
Record arg_info := AInfo {
  ak_key : str;
  ak_syntax : option symbol;
  ak_argument : option argument;
  ak_form : option argument_form;
  ak_for_request : option bool;
  ak_for_response : option bool
}.
(** httpolice/known/cache_directive.csv *)
Definition cache_directive_table : list arg_info := [
  AInfo (s "immutable") None (Some ArgNo) None (Some false) (Some true);
  AInfo (s "max-age") (Some delta_seconds) (Some ArgRequired) (Some FormToken) (Some true) (Some true);
  AInfo (s "max-stale") (Some delta_seconds) (Some ArgOptional) (Some FormToken) (Some true) (Some false);
  AInfo (s "min-fresh") (Some delta_seconds) (Some ArgRequired) (Some FormToken) (Some true) (Some false);
  AInfo (s "must-revalidate") None (Some ArgNo) None (Some false) (Some true);
  AInfo (s "no-cache") (Some no_cache) (Some ArgOptional) (Some FormQuotedString) (Some true) (Some true);
  AInfo (s "no-store") None (Some ArgNo) None (Some true) (Some true);
  AInfo (s "no-transform") None (Some ArgNo) None (Some true) (Some true);
  AInfo (s "only-if-cached") None (Some ArgNo) None (Some true) (Some false);
  AInfo (s "private") (Some private) (Some ArgOptional) (Some FormQuotedString) (Some false) (Some true);
  AInfo (s "proxy-revalidate") None (Some ArgNo) None (Some false) (Some true);
  AInfo (s "public") None (Some ArgNo) None (Some false) (Some true);
  AInfo (s "s-maxage") (Some delta_seconds) (Some ArgRequired) (Some FormToken) (Some false) (Some true);
  AInfo (s "stale-if-error") (Some delta_seconds) (Some ArgRequired) None (Some true) (Some true);
  AInfo (s "stale-while-revalidate") (Some delta_seconds) (Some ArgRequired) None (Some false) (Some true)].

(** httpolice/known/hsts_directive.csv *)
Definition hsts_directive_table : list arg_info := [
  AInfo (s "includeSubDomains") None (Some ArgNo) None None None;
  AInfo (s "max-age") (Some max_age_value) (Some ArgRequired) None None None].

(** httpolice/known/alt_svc_param.csv *)
Definition alt_svc_param_table : list arg_info := [
  AInfo (s "ma") (Some ma) (Some ArgRequired) None None None;
  AInfo (s "persist") (Some persist) (Some ArgRequired) None None None].

(** httpolice/known/preference.csv *)
Definition preference_table : list arg_info := [
  AInfo (s "depth-noroot") None None None None None;
  AInfo (s "handling") (Some handling) (Some ArgRequired) None None None;
  AInfo (s "respond-async") None (Some ArgNo) None None None;
  AInfo (s "return") (Some return_) (Some ArgRequired) None None None;
  AInfo (s "wait") (Some wait) (Some ArgRequired) None None None].

(** httpolice/known/forwarded_param.csv *)
Definition forwarded_param_table : list arg_info := [
  AInfo (s "by") (Some node_7239) (Some ArgRequired) None None None;
  AInfo (s "for") (Some node_7239) (Some ArgRequired) None None None;
  AInfo (s "host") (Some Host) (Some ArgRequired) None None None;
  AInfo (s "proto") (Some scheme) (Some ArgRequired) None None None].
