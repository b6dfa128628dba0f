(** What is displayed about the names and numbers in httpolice/known/*.csv: their titles and
    citations.  This file is made from those by a script. *)
From Coq Require Import String.
From Verif Require Import Base Citation.
Open Scope nat_scope.
Open Scope list_scope.
Unset Strict Implicit.
Local Open Scope string_scope.
Local Open Scope list_scope.
Local Open Scope N_scope.
(** The columns [key], [title], [rfc], [rfc_section], [rfc_appendix], [cite_url] and [cite_title] of the
    tables of [known.classes] (httpolice/known/__init__.py:78-108, 242-388). *)
Definition link_tables : list (string * list (str * option str * option cite)) := [
  ("FieldName", [
    ((s "A-IM"), None, (Some (RFC 4229 None None None)));
    ((s "ALPN"), None, (Some (RFC 7639 (Some (s "2")) None None)));
    ((s "AMP-Cache-Transform"), None, (Some (Document None (s "https://github.com/ampproject/amphtml/blob/master/spec/amp-cache-transform.md"))));
    ((s "Accept"), None, (Some (RFC 7231 (Some (s "5.3.2")) None None)));
    ((s "Accept-Additions"), None, (Some (RFC 4229 None None None)));
    ((s "Accept-Charset"), None, (Some (RFC 7231 (Some (s "5.3.3")) None None)));
    ((s "Accept-Datetime"), None, (Some (RFC 7089 None None None)));
    ((s "Accept-Encoding"), None, (Some (RFC 7231 (Some (s "5.3.4")) None None)));
    ((s "Accept-Features"), None, (Some (RFC 4229 None None None)));
    ((s "Accept-Language"), None, (Some (RFC 7231 (Some (s "5.3.5")) None None)));
    ((s "Accept-Patch"), None, (Some (RFC 5789 (Some (s "3.1")) None None)));
    ((s "Accept-Post"), None, (Some (Document (Some (s "W3C Linked Data Platform 1.0")) (s "https://www.w3.org/TR/ldp/#header-accept-post"))));
    ((s "Accept-Ranges"), None, (Some (RFC 7233 (Some (s "2.3")) None None)));
    ((s "Access-Control"), None, (Some (Document (Some (s "W3C Web Application Formats Working Group")) (s "http://www.w3.org/2006/appformats/"))));
    ((s "Access-Control-Allow-Credentials"), None, (Some (Document (Some (s "WHATWG Fetch")) (s "https://fetch.spec.whatwg.org/#http-access-control-allow-credentials"))));
    ((s "Access-Control-Allow-Headers"), None, (Some (Document (Some (s "WHATWG Fetch")) (s "https://fetch.spec.whatwg.org/#http-access-control-allow-headers"))));
    ((s "Access-Control-Allow-Methods"), None, (Some (Document (Some (s "WHATWG Fetch")) (s "https://fetch.spec.whatwg.org/#http-access-control-allow-methods"))));
    ((s "Access-Control-Allow-Origin"), None, (Some (Document (Some (s "WHATWG Fetch")) (s "https://fetch.spec.whatwg.org/#http-access-control-allow-origin"))));
    ((s "Access-Control-Expose-Headers"), None, (Some (Document (Some (s "WHATWG Fetch")) (s "https://fetch.spec.whatwg.org/#http-access-control-expose-headers"))));
    ((s "Access-Control-Max-Age"), None, (Some (Document (Some (s "WHATWG Fetch")) (s "https://fetch.spec.whatwg.org/#http-access-control-max-age"))));
    ((s "Access-Control-Request-Headers"), None, (Some (Document (Some (s "WHATWG Fetch")) (s "https://fetch.spec.whatwg.org/#http-access-control-request-headers"))));
    ((s "Access-Control-Request-Method"), None, (Some (Document (Some (s "WHATWG Fetch")) (s "https://fetch.spec.whatwg.org/#http-access-control-request-method"))));
    ((s "Age"), None, (Some (RFC 7234 (Some (s "5.1")) None None)));
    ((s "Allow"), None, (Some (RFC 7231 (Some (s "7.4.1")) None None)));
    ((s "Alt-Svc"), None, (Some (RFC 7838 (Some (s "3")) None None)));
    ((s "Alt-Used"), None, (Some (RFC 7838 (Some (s "5")) None None)));
    ((s "Alternates"), None, (Some (RFC 4229 None None None)));
    ((s "Apply-To-Redirect-Ref"), None, (Some (RFC 4437 None None None)));
    ((s "Authentication-Control"), None, (Some (RFC 8053 (Some (s "4")) None None)));
    ((s "Authentication-Info"), None, (Some (RFC 7615 (Some (s "3")) None None)));
    ((s "Authorization"), None, (Some (RFC 7235 (Some (s "4.2")) None None)));
    ((s "C-Ext"), None, (Some (RFC 4229 None None None)));
    ((s "C-Man"), None, (Some (RFC 4229 None None None)));
    ((s "C-Opt"), None, (Some (RFC 4229 None None None)));
    ((s "C-PEP"), None, (Some (RFC 4229 None None None)));
    ((s "C-PEP-Info"), None, (Some (RFC 4229 None None None)));
    ((s "CDN-Loop"), None, (Some (RFC 8586 None None None)));
    ((s "Cache-Control"), None, (Some (RFC 7234 (Some (s "5.2")) None None)));
    ((s "Cal-Managed-ID"), None, (Some (RFC 8607 (Some (s "5.1")) None None)));
    ((s "CalDAV-Timezones"), None, (Some (RFC 7809 (Some (s "7.1")) None None)));
    ((s "Close"), None, (Some (RFC 7230 (Some (s "8.1")) None None)));
    ((s "Compliance"), None, (Some (RFC 4229 None None None)));
    ((s "Connection"), None, (Some (RFC 7230 (Some (s "6.1")) None None)));
    ((s "Content-Base"), None, (Some (RFC 2068 None None None)));
    ((s "Content-Disposition"), None, (Some (RFC 6266 (Some (s "4")) None None)));
    ((s "Content-Encoding"), None, (Some (RFC 7231 (Some (s "3.1.2.2")) None None)));
    ((s "Content-ID"), None, (Some (RFC 4229 None None None)));
    ((s "Content-Language"), None, (Some (RFC 7231 (Some (s "3.1.3.2")) None None)));
    ((s "Content-Length"), None, (Some (RFC 7230 (Some (s "3.3.2")) None None)));
    ((s "Content-Location"), None, (Some (RFC 7231 (Some (s "3.1.4.2")) None None)));
    ((s "Content-MD5"), None, (Some (RFC 4229 None None None)));
    ((s "Content-Range"), None, (Some (RFC 7233 (Some (s "4.2")) None None)));
    ((s "Content-Script-Type"), None, (Some (RFC 4229 None None None)));
    ((s "Content-Style-Type"), None, (Some (RFC 4229 None None None)));
    ((s "Content-Transfer-Encoding"), None, (Some (RFC 4229 None None None)));
    ((s "Content-Type"), None, (Some (RFC 7231 (Some (s "3.1.1.5")) None None)));
    ((s "Content-Version"), None, (Some (RFC 4229 None None None)));
    ((s "Cookie"), None, (Some (RFC 6265 None None None)));
    ((s "Cookie2"), None, (Some (RFC 2965 None None None)));
    ((s "Cost"), None, (Some (RFC 4229 None None None)));
    ((s "Cross-Origin-Resource-Policy"), None, (Some (Document (Some (s "WHATWG Fetch")) (s "https://fetch.spec.whatwg.org/#http-cross-origin-resource-policy"))));
    ((s "DASL"), None, (Some (RFC 5323 None None None)));
    ((s "DAV"), None, (Some (RFC 4918 None None None)));
    ((s "Date"), None, (Some (RFC 7231 (Some (s "7.1.1.2")) None None)));
    ((s "Default-Style"), None, (Some (RFC 4229 None None None)));
    ((s "Delta-Base"), None, (Some (RFC 4229 None None None)));
    ((s "Depth"), None, (Some (RFC 4918 None None None)));
    ((s "Derived-From"), None, (Some (RFC 4229 None None None)));
    ((s "Destination"), None, (Some (RFC 4918 None None None)));
    ((s "Differential-ID"), None, (Some (RFC 4229 None None None)));
    ((s "Digest"), None, (Some (RFC 4229 None None None)));
    ((s "EDIINT-Features"), None, (Some (RFC 6017 None None None)));
    ((s "ETag"), None, (Some (RFC 7232 (Some (s "2.3")) None None)));
    ((s "Early-Data"), None, (Some (RFC 8470 None None None)));
    ((s "Expect"), None, (Some (RFC 7231 (Some (s "5.1.1")) None None)));
    ((s "Expires"), None, (Some (RFC 7234 (Some (s "5.3")) None None)));
    ((s "Ext"), None, (Some (RFC 4229 None None None)));
    ((s "Forwarded"), None, (Some (RFC 7239 (Some (s "4")) None None)));
    ((s "From"), None, (Some (RFC 7231 (Some (s "5.5.1")) None None)));
    ((s "GetProfile"), None, (Some (RFC 4229 None None None)));
    ((s "HTTP2-Settings"), None, (Some (RFC 7540 (Some (s "3.2.1")) None None)));
    ((s "HTTPolice-Silence"), None, None);
    ((s "Hobareg"), None, (Some (RFC 7486 (Some (s "6.1.1")) None None)));
    ((s "Host"), None, (Some (RFC 7230 (Some (s "5.4")) None None)));
    ((s "IM"), None, (Some (RFC 4229 None None None)));
    ((s "If"), None, (Some (RFC 4918 (Some (s "10.4")) None None)));
    ((s "If-Match"), None, (Some (RFC 7232 (Some (s "3.1")) None None)));
    ((s "If-Modified-Since"), None, (Some (RFC 7232 (Some (s "3.3")) None None)));
    ((s "If-None-Match"), None, (Some (RFC 7232 (Some (s "3.2")) None None)));
    ((s "If-Range"), None, (Some (RFC 7233 (Some (s "3.2")) None None)));
    ((s "If-Schedule-Tag-Match"), None, (Some (RFC 6638 (Some (s "8.3")) None None)));
    ((s "If-Unmodified-Since"), None, (Some (RFC 7232 (Some (s "3.4")) None None)));
    ((s "Include-Referred-Token-Binding-ID"), None, (Some (RFC 8473 None None None)));
    ((s "Keep-Alive"), None, (Some (RFC 4229 None None None)));
    ((s "Label"), None, (Some (RFC 4229 None None None)));
    ((s "Last-Modified"), None, (Some (RFC 7232 (Some (s "2.2")) None None)));
    ((s "Link"), None, (Some (RFC 8288 (Some (s "3")) None None)));
    ((s "Location"), None, (Some (RFC 7231 (Some (s "7.1.2")) None None)));
    ((s "Lock-Token"), None, (Some (RFC 4918 None None None)));
    ((s "MIME-Version"), None, (Some (RFC 7231 None (Some (s "A.1")) None)));
    ((s "Man"), None, (Some (RFC 4229 None None None)));
    ((s "Max-Forwards"), None, (Some (RFC 7231 (Some (s "5.1.2")) None None)));
    ((s "Memento-Datetime"), None, (Some (RFC 7089 None None None)));
    ((s "Message-ID"), None, (Some (RFC 4229 None None None)));
    ((s "Meter"), None, (Some (RFC 4229 None None None)));
    ((s "Method-Check"), None, (Some (Document (Some (s "W3C Web Application Formats Working Group")) (s "http://www.w3.org/2006/appformats/"))));
    ((s "Method-Check-Expires"), None, (Some (Document (Some (s "W3C Web Application Formats Working Group")) (s "http://www.w3.org/2006/appformats/"))));
    ((s "Negotiate"), None, (Some (RFC 4229 None None None)));
    ((s "Non-Compliance"), None, (Some (RFC 4229 None None None)));
    ((s "Opt"), None, (Some (RFC 4229 None None None)));
    ((s "Optional"), None, (Some (RFC 4229 None None None)));
    ((s "Optional-WWW-Authenticate"), None, (Some (RFC 8053 (Some (s "3")) None None)));
    ((s "Ordering-Type"), None, (Some (RFC 4229 None None None)));
    ((s "Origin"), None, (Some (Document (Some (s "WHATWG Fetch")) (s "https://fetch.spec.whatwg.org/#http-origin"))));
    ((s "Overwrite"), None, (Some (RFC 4918 None None None)));
    ((s "P3P"), None, (Some (RFC 4229 None None None)));
    ((s "PEP"), None, (Some (RFC 4229 None None None)));
    ((s "PICS-Label"), None, (Some (RFC 4229 None None None)));
    ((s "Pep-Info"), None, (Some (RFC 4229 None None None)));
    ((s "Position"), None, (Some (RFC 4229 None None None)));
    ((s "Pragma"), None, (Some (RFC 7234 (Some (s "5.4")) None None)));
    ((s "Prefer"), None, (Some (RFC 7240 (Some (s "2")) None None)));
    ((s "Preference-Applied"), None, (Some (RFC 7240 (Some (s "3")) None None)));
    ((s "ProfileObject"), None, (Some (RFC 4229 None None None)));
    ((s "Protocol"), None, (Some (RFC 4229 None None None)));
    ((s "Protocol-Info"), None, (Some (RFC 4229 None None None)));
    ((s "Protocol-Query"), None, (Some (RFC 4229 None None None)));
    ((s "Protocol-Request"), None, (Some (RFC 4229 None None None)));
    ((s "Proxy-Authenticate"), None, (Some (RFC 7235 (Some (s "4.3")) None None)));
    ((s "Proxy-Authentication-Info"), None, (Some (RFC 7615 (Some (s "4")) None None)));
    ((s "Proxy-Authorization"), None, (Some (RFC 7235 (Some (s "4.4")) None None)));
    ((s "Proxy-Features"), None, (Some (RFC 4229 None None None)));
    ((s "Proxy-Instruction"), None, (Some (RFC 4229 None None None)));
    ((s "Public"), None, (Some (RFC 4229 None None None)));
    ((s "Public-Key-Pins"), None, (Some (RFC 7469 None None None)));
    ((s "Public-Key-Pins-Report-Only"), None, (Some (RFC 7469 None None None)));
    ((s "Range"), None, (Some (RFC 7233 (Some (s "3.1")) None None)));
    ((s "Redirect-Ref"), None, (Some (RFC 4437 None None None)));
    ((s "Referer"), None, (Some (RFC 7231 (Some (s "5.5.2")) None None)));
    ((s "Referer-Root"), None, (Some (Document (Some (s "W3C Web Application Formats Working Group")) (s "http://www.w3.org/2006/appformats/"))));
    ((s "Replay-Nonce"), None, (Some (RFC 8555 (Some (s "6.5.1")) None None)));
    ((s "Resolution-Hint"), None, (Some (RFC 4229 None None None)));
    ((s "Resolver-Location"), None, (Some (RFC 4229 None None None)));
    ((s "Retry-After"), None, (Some (RFC 7231 (Some (s "7.1.3")) None None)));
    ((s "SLUG"), None, (Some (RFC 5023 None None None)));
    ((s "Safe"), None, (Some (RFC 4229 None None None)));
    ((s "Schedule-Reply"), None, (Some (RFC 6638 None None None)));
    ((s "Schedule-Tag"), None, (Some (RFC 6638 None None None)));
    ((s "Sec-Token-Binding"), None, (Some (RFC 8473 None None None)));
    ((s "Sec-WebSocket-Accept"), None, (Some (RFC 6455 None None None)));
    ((s "Sec-WebSocket-Extensions"), None, (Some (RFC 6455 None None None)));
    ((s "Sec-WebSocket-Key"), None, (Some (RFC 6455 None None None)));
    ((s "Sec-WebSocket-Protocol"), None, (Some (RFC 6455 None None None)));
    ((s "Sec-WebSocket-Version"), None, (Some (RFC 6455 None None None)));
    ((s "Security-Scheme"), None, (Some (RFC 4229 None None None)));
    ((s "Server"), None, (Some (RFC 7231 (Some (s "7.4.2")) None None)));
    ((s "Set-Cookie"), None, (Some (RFC 6265 None None None)));
    ((s "Set-Cookie2"), None, (Some (RFC 2965 None None None)));
    ((s "SetProfile"), None, (Some (RFC 4229 None None None)));
    ((s "SoapAction"), None, (Some (RFC 4229 None None None)));
    ((s "Status-URI"), None, (Some (RFC 4229 None None None)));
    ((s "Strict-Transport-Security"), None, (Some (RFC 6797 (Some (s "6.1")) None None)));
    ((s "SubOK"), None, (Some (RFC 4229 None None None)));
    ((s "Subst"), None, (Some (RFC 4229 None None None)));
    ((s "Sunset"), None, (Some (RFC 8594 None None None)));
    ((s "Surrogate-Capability"), None, (Some (RFC 4229 None None None)));
    ((s "Surrogate-Control"), None, (Some (RFC 4229 None None None)));
    ((s "TCN"), None, (Some (RFC 4229 None None None)));
    ((s "TE"), None, (Some (RFC 7230 (Some (s "4.3")) None None)));
    ((s "TTL"), None, (Some (RFC 8030 (Some (s "5.2")) None None)));
    ((s "Timeout"), None, (Some (RFC 4918 None None None)));
    ((s "Timing-Allow-Origin"), None, (Some (Document None (s "https://www.w3.org/TR/resource-timing-1/#timing-allow-origin"))));
    ((s "Title"), None, (Some (RFC 4229 None None None)));
    ((s "Topic"), None, (Some (RFC 8030 (Some (s "5.4")) None None)));
    ((s "Traceparent"), None, (Some (Document None (s "https://www.w3.org/TR/trace-context/#traceparent-field"))));
    ((s "Tracestate"), None, (Some (Document None (s "https://www.w3.org/TR/trace-context/#tracestate-field"))));
    ((s "Trailer"), None, (Some (RFC 7230 (Some (s "4.4")) None None)));
    ((s "Transfer-Encoding"), None, (Some (RFC 7230 (Some (s "3.3.1")) None None)));
    ((s "UA-Color"), None, (Some (RFC 4229 None None None)));
    ((s "UA-Media"), None, (Some (RFC 4229 None None None)));
    ((s "UA-Pixels"), None, (Some (RFC 4229 None None None)));
    ((s "UA-Resolution"), None, (Some (RFC 4229 None None None)));
    ((s "UA-Windowpixels"), None, (Some (RFC 4229 None None None)));
    ((s "URI"), None, (Some (RFC 4229 None None None)));
    ((s "Upgrade"), None, (Some (RFC 7230 (Some (s "6.7")) None None)));
    ((s "Urgency"), None, (Some (RFC 8030 (Some (s "5.3")) None None)));
    ((s "User-Agent"), None, (Some (RFC 7231 (Some (s "5.5.3")) None None)));
    ((s "Variant-Vary"), None, (Some (RFC 4229 None None None)));
    ((s "Vary"), None, (Some (RFC 7231 (Some (s "7.1.4")) None None)));
    ((s "Version"), None, (Some (RFC 4229 None None None)));
    ((s "Via"), None, (Some (RFC 7230 (Some (s "5.7.1")) None None)));
    ((s "WWW-Authenticate"), None, (Some (RFC 7235 (Some (s "4.1")) None None)));
    ((s "Want-Digest"), None, (Some (RFC 4229 None None None)));
    ((s "Warning"), None, (Some (RFC 7234 (Some (s "5.5")) None None)));
    ((s "X-ATT-DeviceId"), None, None);
    ((s "X-Aspnet-Version"), None, None);
    ((s "X-CSRF-Token"), None, None);
    ((s "X-CSRFToken"), None, None);
    ((s "X-Content-Duration"), None, None);
    ((s "X-Content-Security-Policy"), None, None);
    ((s "X-Content-Type-Options"), None, (Some (Document (Some (s "WHATWG Fetch")) (s "https://fetch.spec.whatwg.org/#x-content-type-options-header"))));
    ((s "X-Device-Accept"), None, (Some (Document (Some (s "W3C Mobile Web Best Practices Working Group")) (s "http://www.w3.org/2005/MWI/BPWG/"))));
    ((s "X-Device-Accept-Charset"), None, (Some (Document (Some (s "W3C Mobile Web Best Practices Working Group")) (s "http://www.w3.org/2005/MWI/BPWG/"))));
    ((s "X-Device-Accept-Encoding"), None, (Some (Document (Some (s "W3C Mobile Web Best Practices Working Group")) (s "http://www.w3.org/2005/MWI/BPWG/"))));
    ((s "X-Device-Accept-Language"), None, (Some (Document (Some (s "W3C Mobile Web Best Practices Working Group")) (s "http://www.w3.org/2005/MWI/BPWG/"))));
    ((s "X-Device-User-Agent"), None, (Some (Document (Some (s "W3C Mobile Web Best Practices Working Group")) (s "http://www.w3.org/2005/MWI/BPWG/"))));
    ((s "X-Firefox-SPDY"), None, None);
    ((s "X-Forwarded-For"), None, None);
    ((s "X-Forwarded-Host"), None, None);
    ((s "X-Forwarded-Proto"), None, None);
    ((s "X-Frame-Options"), None, (Some (RFC 7034 None None None)));
    ((s "X-GitHub-Request-ID"), None, None);
    ((s "X-HTTP-Method-Override"), None, None);
    ((s "X-Powered-By"), None, None);
    ((s "X-Real-IP"), None, None);
    ((s "X-Requested-With"), None, None);
    ((s "X-UA-Compatible"), None, None);
    ((s "X-UIDH"), None, None);
    ((s "X-Varnish"), None, None);
    ((s "X-Wap-Profile"), None, None);
    ((s "X-WebKit-CSP"), None, None);
    ((s "X-XSRF-Token"), None, None);
    ((s "X-XSS-Protection"), None, None)]);
  ("Method", [
    ((s "ACL"), None, (Some (RFC 3744 (Some (s "8.1")) None None)));
    ((s "BASELINE-CONTROL"), None, (Some (RFC 3253 (Some (s "12.6")) None None)));
    ((s "BIND"), None, (Some (RFC 5842 (Some (s "4")) None None)));
    ((s "CHECKIN"), None, (Some (RFC 3253 (Some (s "4.4")) None None)));
    ((s "CHECKOUT"), None, (Some (RFC 3253 (Some (s "4.3")) None None)));
    ((s "CONNECT"), None, (Some (RFC 7231 (Some (s "4.3.6")) None None)));
    ((s "COPY"), None, (Some (RFC 4918 (Some (s "9.8")) None None)));
    ((s "DELETE"), None, (Some (RFC 7231 (Some (s "4.3.5")) None None)));
    ((s "GET"), None, (Some (RFC 7231 (Some (s "4.3.1")) None None)));
    ((s "HEAD"), None, (Some (RFC 7231 (Some (s "4.3.2")) None None)));
    ((s "LABEL"), None, (Some (RFC 3253 (Some (s "8.2")) None None)));
    ((s "LINK"), None, (Some (RFC 2068 (Some (s "19.6.1.2")) None None)));
    ((s "LOCK"), None, (Some (RFC 4918 (Some (s "9.10")) None None)));
    ((s "MERGE"), None, (Some (RFC 3253 (Some (s "11.2")) None None)));
    ((s "MKACTIVITY"), None, (Some (RFC 3253 (Some (s "13.5")) None None)));
    ((s "MKCALENDAR"), None, (Some (RFC 4791 (Some (s "5.3.1")) None None)));
    ((s "MKCOL"), None, (Some (RFC 4918 (Some (s "9.3")) None None)));
    ((s "MKREDIRECTREF"), None, (Some (RFC 4437 (Some (s "6")) None None)));
    ((s "MKWORKSPACE"), None, (Some (RFC 3253 (Some (s "6.3")) None None)));
    ((s "MOVE"), None, (Some (RFC 4918 (Some (s "9.9")) None None)));
    ((s "OPTIONS"), None, (Some (RFC 7231 (Some (s "4.3.7")) None None)));
    ((s "ORDERPATCH"), None, (Some (RFC 3648 (Some (s "7")) None None)));
    ((s "PATCH"), None, (Some (RFC 5789 (Some (s "2")) None None)));
    ((s "POST"), None, (Some (RFC 7231 (Some (s "4.3.3")) None None)));
    ((s "PRI"), None, (Some (RFC 7540 (Some (s "3.5")) None None)));
    ((s "PROPFIND"), None, (Some (RFC 4918 (Some (s "9.1")) None None)));
    ((s "PROPPATCH"), None, (Some (RFC 4918 (Some (s "9.2")) None None)));
    ((s "PUT"), None, (Some (RFC 7231 (Some (s "4.3.4")) None None)));
    ((s "REBIND"), None, (Some (RFC 5842 (Some (s "6")) None None)));
    ((s "REPORT"), None, (Some (RFC 3253 (Some (s "3.6")) None None)));
    ((s "SEARCH"), None, (Some (RFC 5323 (Some (s "2")) None None)));
    ((s "TRACE"), None, (Some (RFC 7231 (Some (s "4.3.8")) None None)));
    ((s "UNBIND"), None, (Some (RFC 5842 (Some (s "5")) None None)));
    ((s "UNCHECKOUT"), None, (Some (RFC 3253 (Some (s "4.5")) None None)));
    ((s "UNLINK"), None, (Some (RFC 2068 (Some (s "19.6.1.3")) None None)));
    ((s "UNLOCK"), None, (Some (RFC 4918 (Some (s "9.11")) None None)));
    ((s "UPDATE"), None, (Some (RFC 3253 (Some (s "7.1")) None None)));
    ((s "UPDATEREDIRECTREF"), None, (Some (RFC 4437 (Some (s "7")) None None)));
    ((s "VERSION-CONTROL"), None, (Some (RFC 3253 (Some (s "3.5")) None None)))]);
  ("StatusCode", [
    ((s "100"), (Some (s "Continue")), (Some (RFC 7231 (Some (s "6.2.1")) None None)));
    ((s "101"), (Some (s "Switching Protocols")), (Some (RFC 7231 (Some (s "6.2.2")) None None)));
    ((s "102"), (Some (s "Processing")), (Some (RFC 2518 None None None)));
    ((s "103"), (Some (s "Early Hints")), (Some (RFC 8297 None None None)));
    ((s "200"), (Some (s "OK")), (Some (RFC 7231 (Some (s "6.3.1")) None None)));
    ((s "201"), (Some (s "Created")), (Some (RFC 7231 (Some (s "6.3.2")) None None)));
    ((s "202"), (Some (s "Accepted")), (Some (RFC 7231 (Some (s "6.3.3")) None None)));
    ((s "203"), (Some (s "Non-Authoritative Information")), (Some (RFC 7231 (Some (s "6.3.4")) None None)));
    ((s "204"), (Some (s "No Content")), (Some (RFC 7231 (Some (s "6.3.5")) None None)));
    ((s "205"), (Some (s "Reset Content")), (Some (RFC 7231 (Some (s "6.3.6")) None None)));
    ((s "206"), (Some (s "Partial Content")), (Some (RFC 7233 (Some (s "4.1")) None None)));
    ((s "207"), (Some (s "Multi-Status")), (Some (RFC 4918 None None None)));
    ((s "208"), (Some (s "Already Reported")), (Some (RFC 5842 None None None)));
    ((s "226"), (Some (s "IM Used")), (Some (RFC 3229 None None None)));
    ((s "300"), (Some (s "Multiple Choices")), (Some (RFC 7231 (Some (s "6.4.1")) None None)));
    ((s "301"), (Some (s "Moved Permanently")), (Some (RFC 7231 (Some (s "6.4.2")) None None)));
    ((s "302"), (Some (s "Found")), (Some (RFC 7231 (Some (s "6.4.3")) None None)));
    ((s "303"), (Some (s "See Other")), (Some (RFC 7231 (Some (s "6.4.4")) None None)));
    ((s "304"), (Some (s "Not Modified")), (Some (RFC 7232 (Some (s "4.1")) None None)));
    ((s "305"), (Some (s "Use Proxy")), (Some (RFC 7231 (Some (s "6.4.5")) None None)));
    ((s "306"), (Some (s "(Unused)")), (Some (RFC 7231 (Some (s "6.4.6")) None None)));
    ((s "307"), (Some (s "Temporary Redirect")), (Some (RFC 7231 (Some (s "6.4.7")) None None)));
    ((s "308"), (Some (s "Permanent Redirect")), (Some (RFC 7538 (Some (s "3")) None None)));
    ((s "400"), (Some (s "Bad Request")), (Some (RFC 7231 (Some (s "6.5.1")) None None)));
    ((s "401"), (Some (s "Unauthorized")), (Some (RFC 7235 (Some (s "3.1")) None None)));
    ((s "402"), (Some (s "Payment Required")), (Some (RFC 7231 (Some (s "6.5.2")) None None)));
    ((s "403"), (Some (s "Forbidden")), (Some (RFC 7231 (Some (s "6.5.3")) None None)));
    ((s "404"), (Some (s "Not Found")), (Some (RFC 7231 (Some (s "6.5.4")) None None)));
    ((s "405"), (Some (s "Method Not Allowed")), (Some (RFC 7231 (Some (s "6.5.5")) None None)));
    ((s "406"), (Some (s "Not Acceptable")), (Some (RFC 7231 (Some (s "6.5.6")) None None)));
    ((s "407"), (Some (s "Proxy Authentication Required")), (Some (RFC 7235 (Some (s "3.2")) None None)));
    ((s "408"), (Some (s "Request Timeout")), (Some (RFC 7231 (Some (s "6.5.7")) None None)));
    ((s "409"), (Some (s "Conflict")), (Some (RFC 7231 (Some (s "6.5.8")) None None)));
    ((s "410"), (Some (s "Gone")), (Some (RFC 7231 (Some (s "6.5.9")) None None)));
    ((s "411"), (Some (s "Length Required")), (Some (RFC 7231 (Some (s "6.5.10")) None None)));
    ((s "412"), (Some (s "Precondition Failed")), (Some (RFC 7232 (Some (s "4.2")) None None)));
    ((s "413"), (Some (s "Payload Too Large")), (Some (RFC 7231 (Some (s "6.5.11")) None None)));
    ((s "414"), (Some (s "URI Too Long")), (Some (RFC 7231 (Some (s "6.5.12")) None None)));
    ((s "415"), (Some (s "Unsupported Media Type")), (Some (RFC 7231 (Some (s "6.5.13")) None None)));
    ((s "416"), (Some (s "Range Not Satisfiable")), (Some (RFC 7233 (Some (s "4.4")) None None)));
    ((s "417"), (Some (s "Expectation Failed")), (Some (RFC 7231 (Some (s "6.5.14")) None None)));
    ((s "421"), (Some (s "Misdirected Request")), (Some (RFC 7540 (Some (s "9.1.2")) None None)));
    ((s "422"), (Some (s "Unprocessable Entity")), (Some (RFC 4918 (Some (s "11.2")) None None)));
    ((s "423"), (Some (s "Locked")), (Some (RFC 4918 (Some (s "11.3")) None None)));
    ((s "424"), (Some (s "Failed Dependency")), (Some (RFC 4918 (Some (s "11.4")) None None)));
    ((s "425"), (Some (s "Too Early")), (Some (RFC 8470 None None None)));
    ((s "426"), (Some (s "Upgrade Required")), (Some (RFC 7231 (Some (s "6.5.15")) None None)));
    ((s "428"), (Some (s "Precondition Required")), (Some (RFC 6585 (Some (s "3")) None None)));
    ((s "429"), (Some (s "Too Many Requests")), (Some (RFC 6585 (Some (s "4")) None None)));
    ((s "431"), (Some (s "Request Header Fields Too Large")), (Some (RFC 6585 (Some (s "5")) None None)));
    ((s "451"), (Some (s "Unavailable For Legal Reasons")), (Some (RFC 7725 (Some (s "3")) None None)));
    ((s "500"), (Some (s "Internal Server Error")), (Some (RFC 7231 (Some (s "6.6.1")) None None)));
    ((s "501"), (Some (s "Not Implemented")), (Some (RFC 7231 (Some (s "6.6.2")) None None)));
    ((s "502"), (Some (s "Bad Gateway")), (Some (RFC 7231 (Some (s "6.6.3")) None None)));
    ((s "503"), (Some (s "Service Unavailable")), (Some (RFC 7231 (Some (s "6.6.4")) None None)));
    ((s "504"), (Some (s "Gateway Timeout")), (Some (RFC 7231 (Some (s "6.6.5")) None None)));
    ((s "505"), (Some (s "HTTP Version Not Supported")), (Some (RFC 7231 (Some (s "6.6.6")) None None)));
    ((s "506"), (Some (s "Variant Also Negotiates")), (Some (RFC 2295 None None None)));
    ((s "507"), (Some (s "Insufficient Storage")), (Some (RFC 4918 (Some (s "11.5")) None None)));
    ((s "508"), (Some (s "Loop Detected")), (Some (RFC 5842 None None None)));
    ((s "510"), (Some (s "Not Extended")), (Some (RFC 2774 None None None)));
    ((s "511"), (Some (s "Network Authentication Required")), (Some (RFC 6585 (Some (s "6")) None None)))]);
  ("CacheDirective", [
    ((s "immutable"), None, (Some (RFC 8246 None None None)));
    ((s "max-age"), None, (Some (RFC 7234 (Some (s "5.2")) None None)));
    ((s "max-stale"), None, (Some (RFC 7234 (Some (s "5.2.1.2")) None None)));
    ((s "min-fresh"), None, (Some (RFC 7234 (Some (s "5.2.1.3")) None None)));
    ((s "must-revalidate"), None, (Some (RFC 7234 (Some (s "5.2.2.1")) None None)));
    ((s "no-cache"), None, (Some (RFC 7234 (Some (s "5.2")) None None)));
    ((s "no-store"), None, (Some (RFC 7234 (Some (s "5.2")) None None)));
    ((s "no-transform"), None, (Some (RFC 7234 (Some (s "5.2")) None None)));
    ((s "only-if-cached"), None, (Some (RFC 7234 (Some (s "5.2.1.7")) None None)));
    ((s "private"), None, (Some (RFC 7234 (Some (s "5.2.2.6")) None None)));
    ((s "proxy-revalidate"), None, (Some (RFC 7234 (Some (s "5.2.2.7")) None None)));
    ((s "public"), None, (Some (RFC 7234 (Some (s "5.2.2.5")) None None)));
    ((s "s-maxage"), None, (Some (RFC 7234 (Some (s "5.2.2.9")) None None)));
    ((s "stale-if-error"), None, (Some (RFC 5861 (Some (s "4")) None None)));
    ((s "stale-while-revalidate"), None, (Some (RFC 5861 (Some (s "3")) None None)))]);
  ("ForwardedParam", [
    ((s "by"), None, (Some (RFC 7239 (Some (s "5.1")) None None)));
    ((s "for"), None, (Some (RFC 7239 (Some (s "5.2")) None None)));
    ((s "host"), None, (Some (RFC 7239 (Some (s "5.3")) None None)));
    ((s "proto"), None, (Some (RFC 7239 (Some (s "5.4")) None None)))]);
  ("MediaType", [
    ((s "application/1d-interleaved-parityfec"), None, (Some (RFC 6015 None None None)));
    ((s "application/alto-costmap+json"), None, (Some (RFC 7285 None None None)));
    ((s "application/alto-costmapfilter+json"), None, (Some (RFC 7285 None None None)));
    ((s "application/alto-directory+json"), None, (Some (RFC 7285 None None None)));
    ((s "application/alto-endpointcost+json"), None, (Some (RFC 7285 None None None)));
    ((s "application/alto-endpointcostparams+json"), None, (Some (RFC 7285 None None None)));
    ((s "application/alto-endpointprop+json"), None, (Some (RFC 7285 None None None)));
    ((s "application/alto-endpointpropparams+json"), None, (Some (RFC 7285 None None None)));
    ((s "application/alto-error+json"), None, (Some (RFC 7285 None None None)));
    ((s "application/alto-networkmap+json"), None, (Some (RFC 7285 None None None)));
    ((s "application/alto-networkmapfilter+json"), None, (Some (RFC 7285 None None None)));
    ((s "application/atom+xml"), None, (Some (RFC 4287 None None None)));
    ((s "application/atomcat+xml"), None, (Some (RFC 5023 None None None)));
    ((s "application/atomdeleted+xml"), None, (Some (RFC 6721 None None None)));
    ((s "application/atomsvc+xml"), None, (Some (RFC 5023 None None None)));
    ((s "application/auth-policy+xml"), None, (Some (RFC 4745 None None None)));
    ((s "application/batch-smtp"), None, (Some (RFC 2442 None None None)));
    ((s "application/beep+xml"), None, (Some (RFC 3080 None None None)));
    ((s "application/calendar+json"), None, (Some (RFC 7265 None None None)));
    ((s "application/calendar+xml"), None, (Some (RFC 6321 None None None)));
    ((s "application/call-completion"), None, (Some (RFC 6910 None None None)));
    ((s "application/cals-1840"), None, (Some (RFC 1895 None None None)));
    ((s "application/cbor"), None, (Some (RFC 7049 None None None)));
    ((s "application/ccmp+xml"), None, (Some (RFC 6503 None None None)));
    ((s "application/ccxml+xml"), None, (Some (RFC 4267 None None None)));
    ((s "application/cdmi-capability"), None, (Some (RFC 6208 None None None)));
    ((s "application/cdmi-container"), None, (Some (RFC 6208 None None None)));
    ((s "application/cdmi-domain"), None, (Some (RFC 6208 None None None)));
    ((s "application/cdmi-object"), None, (Some (RFC 6208 None None None)));
    ((s "application/cdmi-queue"), None, (Some (RFC 6208 None None None)));
    ((s "application/cdni"), None, (Some (RFC 7736 None None None)));
    ((s "application/cellml+xml"), None, (Some (RFC 4708 None None None)));
    ((s "application/cfw"), None, (Some (RFC 6230 None None None)));
    ((s "application/cms"), None, (Some (RFC 7193 None None None)));
    ((s "application/cnrp+xml"), None, (Some (RFC 3367 None None None)));
    ((s "application/coap-group+json"), None, (Some (RFC 7390 None None None)));
    ((s "application/coap-payload"), None, (Some (RFC 8075 None None None)));
    ((s "application/conference-info+xml"), None, (Some (RFC 4575 None None None)));
    ((s "application/cose"), None, (Some (RFC 8152 None None None)));
    ((s "application/cose-key"), None, (Some (RFC 8152 None None None)));
    ((s "application/cose-key-set"), None, (Some (RFC 8152 None None None)));
    ((s "application/cpl+xml"), None, (Some (RFC 3880 None None None)));
    ((s "application/csrattrs"), None, (Some (RFC 7030 None None None)));
    ((s "application/cwt"), None, (Some (RFC 8392 None None None)));
    ((s "application/davmount+xml"), None, (Some (RFC 4709 None None None)));
    ((s "application/dialog-info+xml"), None, (Some (RFC 4235 None None None)));
    ((s "application/dicom"), None, (Some (RFC 3240 None None None)));
    ((s "application/dns"), None, (Some (RFC 4027 None None None)));
    ((s "application/dns+json"), None, (Some (RFC 8427 None None None)));
    ((s "application/dns-message"), None, (Some (RFC 8484 None None None)));
    ((s "application/dskpp+xml"), None, (Some (RFC 6063 None None None)));
    ((s "application/dssc+der"), None, (Some (RFC 5698 None None None)));
    ((s "application/dssc+xml"), None, (Some (RFC 5698 None None None)));
    ((s "application/dvcs"), None, (Some (RFC 3029 None None None)));
    ((s "application/ecmascript"), None, (Some (RFC 4329 None None None)));
    ((s "application/edi-consent"), None, (Some (RFC 1767 None None None)));
    ((s "application/edi-x12"), None, (Some (RFC 1767 None None None)));
    ((s "application/edifact"), None, (Some (RFC 1767 None None None)));
    ((s "application/emergencycalldata.comment+xml"), None, (Some (RFC 7852 None None None)));
    ((s "application/emergencycalldata.control+xml"), None, (Some (RFC 8147 None None None)));
    ((s "application/emergencycalldata.deviceinfo+xml"), None, (Some (RFC 7852 None None None)));
    ((s "application/emergencycalldata.ecall.msd"), None, (Some (RFC 8147 None None None)));
    ((s "application/emergencycalldata.providerinfo+xml"), None, (Some (RFC 7852 None None None)));
    ((s "application/emergencycalldata.serviceinfo+xml"), None, (Some (RFC 7852 None None None)));
    ((s "application/emergencycalldata.subscriberinfo+xml"), None, (Some (RFC 7852 None None None)));
    ((s "application/emergencycalldata.veds+xml"), None, (Some (RFC 8148 None None None)));
    ((s "application/emma+xml"), None, (Some (Document None (s "http://www.w3.org/TR/2007/CR-emma-20071211/#media-type-registration"))));
    ((s "application/encaprtp"), None, (Some (RFC 6849 None None None)));
    ((s "application/epp+xml"), None, (Some (RFC 5730 None None None)));
    ((s "application/example"), None, (Some (RFC 4735 None None None)));
    ((s "application/exi"), None, (Some (Document None (s "http://www.w3.org/TR/2009/CR-exi-20091208/#mediaTypeRegistration"))));
    ((s "application/fdt+xml"), None, (Some (RFC 6726 None None None)));
    ((s "application/fits"), None, (Some (RFC 4047 None None None)));
    ((s "application/font-sfnt"), None, (Some (RFC 8081 None None None)));
    ((s "application/font-tdpfr"), None, (Some (RFC 3073 None None None)));
    ((s "application/font-woff"), None, (Some (RFC 8081 None None None)));
    ((s "application/framework-attributes+xml"), None, (Some (RFC 6230 None None None)));
    ((s "application/geo+json"), None, (Some (RFC 7946 None None None)));
    ((s "application/geo+json-seq"), None, (Some (RFC 8142 None None None)));
    ((s "application/gzip"), None, (Some (RFC 6713 None None None)));
    ((s "application/h224"), None, (Some (RFC 4573 None None None)));
    ((s "application/held+xml"), None, (Some (RFC 5985 None None None)));
    ((s "application/http"), None, (Some (RFC 7230 None None None)));
    ((s "application/ibe-key-request+xml"), None, (Some (RFC 5408 None None None)));
    ((s "application/ibe-pkg-reply+xml"), None, (Some (RFC 5408 None None None)));
    ((s "application/ibe-pp-data"), None, (Some (RFC 5408 None None None)));
    ((s "application/im-iscomposing+xml"), None, (Some (RFC 3994 None None None)));
    ((s "application/index"), None, (Some (RFC 2652 None None None)));
    ((s "application/index.cmd"), None, (Some (RFC 2652 None None None)));
    ((s "application/index.obj"), None, (Some (RFC 2652 None None None)));
    ((s "application/index.response"), None, (Some (RFC 2652 None None None)));
    ((s "application/index.vnd"), None, (Some (RFC 2652 None None None)));
    ((s "application/iotp"), None, (Some (RFC 2935 None None None)));
    ((s "application/ipfix"), None, (Some (RFC 5655 None None None)));
    ((s "application/ipp"), None, (Some (RFC 8010 None None None)));
    ((s "application/isup"), None, (Some (RFC 3204 None None None)));
    ((s "application/javascript"), None, (Some (RFC 4329 None None None)));
    ((s "application/jose"), None, (Some (RFC 7515 None None None)));
    ((s "application/jose+json"), None, (Some (RFC 7515 None None None)));
    ((s "application/jrd+json"), None, (Some (RFC 7033 None None None)));
    ((s "application/json"), None, (Some (RFC 8259 None None None)));
    ((s "application/json-patch+json"), None, (Some (RFC 6902 None None None)));
    ((s "application/json-seq"), None, (Some (RFC 7464 None None None)));
    ((s "application/jwk+json"), None, (Some (RFC 7517 None None None)));
    ((s "application/jwk-set+json"), None, (Some (RFC 7517 None None None)));
    ((s "application/jwt"), None, (Some (RFC 7519 None None None)));
    ((s "application/kpml-request+xml"), None, (Some (RFC 4730 None None None)));
    ((s "application/kpml-response+xml"), None, (Some (RFC 4730 None None None)));
    ((s "application/lgr+xml"), None, (Some (RFC 7940 None None None)));
    ((s "application/link-format"), None, (Some (RFC 6690 None None None)));
    ((s "application/load-control+xml"), None, (Some (RFC 7200 None None None)));
    ((s "application/lost+xml"), None, (Some (RFC 5222 None None None)));
    ((s "application/lostsync+xml"), None, (Some (RFC 6739 None None None)));
    ((s "application/mads+xml"), None, (Some (RFC 6207 None None None)));
    ((s "application/marc"), None, (Some (RFC 2220 None None None)));
    ((s "application/marcxml+xml"), None, (Some (RFC 6207 None None None)));
    ((s "application/mathml+xml"), None, (Some (Document None (s "http://www.w3.org/TR/MathML3/appendixb.html"))));
    ((s "application/mathml-content+xml"), None, (Some (Document None (s "http://www.w3.org/TR/MathML3/appendixb.html"))));
    ((s "application/mathml-presentation+xml"), None, (Some (Document None (s "http://www.w3.org/TR/MathML3/appendixb.html"))));
    ((s "application/mbox"), None, (Some (RFC 4155 None None None)));
    ((s "application/media-policy-dataset+xml"), None, (Some (RFC 6796 None None None)));
    ((s "application/media_control+xml"), None, (Some (RFC 5168 None None None)));
    ((s "application/mediaservercontrol+xml"), None, (Some (RFC 5022 None None None)));
    ((s "application/merge-patch+json"), None, (Some (RFC 7396 None None None)));
    ((s "application/metalink4+xml"), None, (Some (RFC 5854 None None None)));
    ((s "application/mets+xml"), None, (Some (RFC 6207 None None None)));
    ((s "application/mikey"), None, (Some (RFC 3830 None None None)));
    ((s "application/mods+xml"), None, (Some (RFC 6207 None None None)));
    ((s "application/moss-keys"), None, (Some (RFC 1848 None None None)));
    ((s "application/moss-signature"), None, (Some (RFC 1848 None None None)));
    ((s "application/mosskey-data"), None, (Some (RFC 1848 None None None)));
    ((s "application/mosskey-request"), None, (Some (RFC 1848 None None None)));
    ((s "application/mp21"), None, (Some (RFC 6381 None None None)));
    ((s "application/mp4"), None, (Some (RFC 4337 None None None)));
    ((s "application/mpeg4-generic"), None, (Some (RFC 3640 None None None)));
    ((s "application/mpeg4-iod"), None, (Some (RFC 4337 None None None)));
    ((s "application/mpeg4-iod-xmt"), None, (Some (RFC 4337 None None None)));
    ((s "application/mrb-consumer+xml"), None, (Some (RFC 6917 None None None)));
    ((s "application/mrb-publish+xml"), None, (Some (RFC 6917 None None None)));
    ((s "application/msc-ivr+xml"), None, (Some (RFC 6231 None None None)));
    ((s "application/msc-mixer+xml"), None, (Some (RFC 6505 None None None)));
    ((s "application/mud+json"), None, (Some (RFC 8520 None None None)));
    ((s "application/mxf"), None, (Some (RFC 4539 None None None)));
    ((s "application/nasdata"), None, (Some (RFC 4707 None None None)));
    ((s "application/news-checkgroups"), None, (Some (RFC 5537 None None None)));
    ((s "application/news-groupinfo"), None, (Some (RFC 5537 None None None)));
    ((s "application/news-transmission"), None, (Some (RFC 5537 None None None)));
    ((s "application/nlsml+xml"), None, (Some (RFC 6787 None None None)));
    ((s "application/ocsp-request"), None, (Some (RFC 6960 None None None)));
    ((s "application/ocsp-response"), None, (Some (RFC 6960 None None None)));
    ((s "application/octet-stream"), None, (Some (RFC 2045 None None None)));
    ((s "application/oda"), None, (Some (RFC 1494 None None None)));
    ((s "application/oebps-package+xml"), None, (Some (RFC 4839 None None None)));
    ((s "application/ogg"), None, (Some (RFC 5334 None None None)));
    ((s "application/p2p-overlay+xml"), None, (Some (RFC 6940 None None None)));
    ((s "application/parityfec"), None, (Some (RFC 5109 None None None)));
    ((s "application/passport"), None, (Some (RFC 8225 None None None)));
    ((s "application/patch-ops-error+xml"), None, (Some (RFC 5261 None None None)));
    ((s "application/pdf"), None, (Some (RFC 8118 None None None)));
    ((s "application/pem-certificate-chain"), None, (Some (RFC 8555 None None None)));
    ((s "application/pgp-encrypted"), None, (Some (RFC 3156 None None None)));
    ((s "application/pgp-keys"), None, (Some (RFC 3156 None None None)));
    ((s "application/pgp-signature"), None, (Some (RFC 3156 None None None)));
    ((s "application/pidf+xml"), None, (Some (RFC 3863 None None None)));
    ((s "application/pidf-diff+xml"), None, (Some (RFC 5262 None None None)));
    ((s "application/pkcs10"), None, (Some (RFC 5967 None None None)));
    ((s "application/pkcs7-mime"), None, (Some (RFC 8551 None None None)));
    ((s "application/pkcs7-signature"), None, (Some (RFC 8551 None None None)));
    ((s "application/pkcs8"), None, (Some (RFC 5958 None None None)));
    ((s "application/pkcs8-encrypted"), None, (Some (RFC 8351 None None None)));
    ((s "application/pkix-attr-cert"), None, (Some (RFC 5877 None None None)));
    ((s "application/pkix-cert"), None, (Some (RFC 2585 None None None)));
    ((s "application/pkix-crl"), None, (Some (RFC 2585 None None None)));
    ((s "application/pkix-pkipath"), None, (Some (RFC 6066 None None None)));
    ((s "application/pkixcmp"), None, (Some (RFC 2510 None None None)));
    ((s "application/pls+xml"), None, (Some (RFC 4267 None None None)));
    ((s "application/poc-settings+xml"), None, (Some (RFC 4354 None None None)));
    ((s "application/postscript"), None, (Some (RFC 2045 None None None)));
    ((s "application/ppsp-tracker+json"), None, (Some (RFC 7846 None None None)));
    ((s "application/problem+json"), None, (Some (RFC 7807 None None None)));
    ((s "application/problem+xml"), None, (Some (RFC 7807 None None None)));
    ((s "application/pskc+xml"), None, (Some (RFC 6030 None None None)));
    ((s "application/qsig"), None, (Some (RFC 3204 None None None)));
    ((s "application/raptorfec"), None, (Some (RFC 6682 None None None)));
    ((s "application/rdap+json"), None, (Some (RFC 7483 None None None)));
    ((s "application/rdf+xml"), None, (Some (RFC 3870 None None None)));
    ((s "application/reginfo+xml"), None, (Some (RFC 3680 None None None)));
    ((s "application/relax-ng-compact-syntax"), None, (Some (Document None (s "http://www.jtc1sc34.org/repository/0661.pdf"))));
    ((s "application/remote-printing"), None, (Some (RFC 1486 None None None)));
    ((s "application/reputon+json"), None, (Some (RFC 7071 None None None)));
    ((s "application/resource-lists+xml"), None, (Some (RFC 4826 None None None)));
    ((s "application/resource-lists-diff+xml"), None, (Some (RFC 5362 None None None)));
    ((s "application/rfc+xml"), None, (Some (RFC 7991 None None None)));
    ((s "application/rlmi+xml"), None, (Some (RFC 4662 None None None)));
    ((s "application/rls-services+xml"), None, (Some (RFC 4826 None None None)));
    ((s "application/rpki-ghostbusters"), None, (Some (RFC 6493 None None None)));
    ((s "application/rpki-manifest"), None, (Some (RFC 6481 None None None)));
    ((s "application/rpki-publication"), None, (Some (RFC 8181 None None None)));
    ((s "application/rpki-roa"), None, (Some (RFC 6481 None None None)));
    ((s "application/rpki-updown"), None, (Some (RFC 6492 None None None)));
    ((s "application/rtploopback"), None, (Some (RFC 6849 None None None)));
    ((s "application/rtx"), None, (Some (RFC 4588 None None None)));
    ((s "application/sbml+xml"), None, (Some (RFC 3823 None None None)));
    ((s "application/scim+json"), None, (Some (RFC 7644 None None None)));
    ((s "application/scvp-cv-request"), None, (Some (RFC 5055 None None None)));
    ((s "application/scvp-cv-response"), None, (Some (RFC 5055 None None None)));
    ((s "application/scvp-vp-request"), None, (Some (RFC 5055 None None None)));
    ((s "application/scvp-vp-response"), None, (Some (RFC 5055 None None None)));
    ((s "application/sdp"), None, (Some (RFC 4566 None None None)));
    ((s "application/secevent+jwt"), None, (Some (RFC 8417 None None None)));
    ((s "application/senml+cbor"), None, (Some (RFC 8428 None None None)));
    ((s "application/senml+json"), None, (Some (RFC 8428 None None None)));
    ((s "application/senml+xml"), None, (Some (RFC 8428 None None None)));
    ((s "application/senml-exi"), None, (Some (RFC 8428 None None None)));
    ((s "application/sensml+cbor"), None, (Some (RFC 8428 None None None)));
    ((s "application/sensml+json"), None, (Some (RFC 8428 None None None)));
    ((s "application/sensml+xml"), None, (Some (RFC 8428 None None None)));
    ((s "application/sensml-exi"), None, (Some (RFC 8428 None None None)));
    ((s "application/sgml"), None, (Some (RFC 1874 None None None)));
    ((s "application/shf+xml"), None, (Some (RFC 4194 None None None)));
    ((s "application/sieve"), None, (Some (RFC 5228 None None None)));
    ((s "application/simple-filter+xml"), None, (Some (RFC 4661 None None None)));
    ((s "application/simple-message-summary"), None, (Some (RFC 3842 None None None)));
    ((s "application/smil"), None, (Some (RFC 4536 None None None)));
    ((s "application/smil+xml"), None, (Some (RFC 4536 None None None)));
    ((s "application/smpte336m"), None, (Some (RFC 6597 None None None)));
    ((s "application/soap+xml"), None, (Some (RFC 3902 None None None)));
    ((s "application/sparql-query"), None, (Some (Document None (s "http://www.w3.org/TR/2007/CR-rdf-sparql-query-20070614/#mediaType"))));
    ((s "application/sparql-results+xml"), None, (Some (Document None (s "http://www.w3.org/TR/2007/CR-rdf-sparql-XMLres-20070925/#mime"))));
    ((s "application/spirits-event+xml"), None, (Some (RFC 3910 None None None)));
    ((s "application/sql"), None, (Some (RFC 6922 None None None)));
    ((s "application/srgs"), None, (Some (RFC 4267 None None None)));
    ((s "application/srgs+xml"), None, (Some (RFC 4267 None None None)));
    ((s "application/sru+xml"), None, (Some (RFC 6207 None None None)));
    ((s "application/ssml+xml"), None, (Some (RFC 4267 None None None)));
    ((s "application/tamp-apex-update"), None, (Some (RFC 5934 None None None)));
    ((s "application/tamp-apex-update-confirm"), None, (Some (RFC 5934 None None None)));
    ((s "application/tamp-community-update"), None, (Some (RFC 5934 None None None)));
    ((s "application/tamp-community-update-confirm"), None, (Some (RFC 5934 None None None)));
    ((s "application/tamp-error"), None, (Some (RFC 5934 None None None)));
    ((s "application/tamp-sequence-adjust"), None, (Some (RFC 5934 None None None)));
    ((s "application/tamp-sequence-adjust-confirm"), None, (Some (RFC 5934 None None None)));
    ((s "application/tamp-status-query"), None, (Some (RFC 5934 None None None)));
    ((s "application/tamp-status-response"), None, (Some (RFC 5934 None None None)));
    ((s "application/tamp-update"), None, (Some (RFC 5934 None None None)));
    ((s "application/tamp-update-confirm"), None, (Some (RFC 5934 None None None)));
    ((s "application/tei+xml"), None, (Some (RFC 6129 None None None)));
    ((s "application/thraud+xml"), None, (Some (RFC 5941 None None None)));
    ((s "application/timestamp-query"), None, (Some (RFC 3161 None None None)));
    ((s "application/timestamp-reply"), None, (Some (RFC 3161 None None None)));
    ((s "application/timestamped-data"), None, (Some (RFC 5955 None None None)));
    ((s "application/tlsrpt+gzip"), None, (Some (RFC 8460 None None None)));
    ((s "application/tlsrpt+json"), None, (Some (RFC 8460 None None None)));
    ((s "application/tnauthlist"), None, (Some (RFC 8226 None None None)));
    ((s "application/tzif"), None, (Some (RFC 8536 None None None)));
    ((s "application/tzif-leap"), None, (Some (RFC 8536 None None None)));
    ((s "application/ulpfec"), None, (Some (RFC 5109 None None None)));
    ((s "application/vcard+json"), None, (Some (RFC 7095 None None None)));
    ((s "application/vcard+xml"), None, (Some (RFC 6351 None None None)));
    ((s "application/vemmi"), None, (Some (RFC 2122 None None None)));
    ((s "application/voicexml+xml"), None, (Some (RFC 4267 None None None)));
    ((s "application/voucher-cms+json"), None, (Some (RFC 8366 None None None)));
    ((s "application/vq-rtcpxr"), None, (Some (RFC 6035 None None None)));
    ((s "application/watcherinfo+xml"), None, (Some (RFC 3858 None None None)));
    ((s "application/webpush-options+json"), None, (Some (RFC 8292 None None None)));
    ((s "application/whoispp-query"), None, (Some (RFC 2957 None None None)));
    ((s "application/whoispp-response"), None, (Some (RFC 2958 None None None)));
    ((s "application/widget"), None, (Some (Document (Some (s "W3C-Widgets-2012")) (s "http://www.w3.org/TR/widgets/#media-type-registration-for-application/widget"))));
    ((s "application/x-www-form-urlencoded"), None, (Some (Document None (s "http://www.w3.org/TR/html/iana.html#application/x-www-form-urlencoded"))));
    ((s "application/x400-bp"), None, (Some (RFC 1494 None None None)));
    ((s "application/xacml+xml"), None, (Some (RFC 7061 None None None)));
    ((s "application/xcap-att+xml"), None, (Some (RFC 4825 None None None)));
    ((s "application/xcap-caps+xml"), None, (Some (RFC 4825 None None None)));
    ((s "application/xcap-diff+xml"), None, (Some (RFC 5874 None None None)));
    ((s "application/xcap-el+xml"), None, (Some (RFC 4825 None None None)));
    ((s "application/xcap-error+xml"), None, (Some (RFC 4825 None None None)));
    ((s "application/xcap-ns+xml"), None, (Some (RFC 4825 None None None)));
    ((s "application/xcon-conference-info+xml"), None, (Some (RFC 6502 None None None)));
    ((s "application/xcon-conference-info-diff+xml"), None, (Some (RFC 6502 None None None)));
    ((s "application/xhtml+xml"), None, (Some (Document None (s "http://www.w3.org/TR/html/iana.html#application/xhtml+xml"))));
    ((s "application/xml"), None, (Some (RFC 7303 None None None)));
    ((s "application/xml-dtd"), None, (Some (RFC 7303 None None None)));
    ((s "application/xml-external-parsed-entity"), None, (Some (RFC 7303 None None None)));
    ((s "application/xml-patch+xml"), None, (Some (RFC 7351 None None None)));
    ((s "application/xmpp+xml"), None, (Some (RFC 3923 None None None)));
    ((s "application/xslt+xml"), None, (Some (Document None (s "http://www.w3.org/TR/2007/REC-xslt20-20070123/#media-type-registration"))));
    ((s "application/xv+xml"), None, (Some (RFC 4374 None None None)));
    ((s "application/yang"), None, (Some (RFC 6020 None None None)));
    ((s "application/yang-data+json"), None, (Some (RFC 8040 None None None)));
    ((s "application/yang-data+xml"), None, (Some (RFC 8040 None None None)));
    ((s "application/yang-patch+json"), None, (Some (RFC 8072 None None None)));
    ((s "application/yang-patch+xml"), None, (Some (RFC 8072 None None None)));
    ((s "application/yin+xml"), None, (Some (RFC 6020 None None None)));
    ((s "application/zlib"), None, (Some (RFC 6713 None None None)));
    ((s "application/zstd"), None, (Some (RFC 8478 None None None)));
    ((s "audio/1d-interleaved-parityfec"), None, (Some (RFC 6015 None None None)));
    ((s "audio/32kadpcm"), None, (Some (RFC 3802 None None None)));
    ((s "audio/3gpp"), None, (Some (RFC 3839 None None None)));
    ((s "audio/3gpp2"), None, (Some (RFC 4393 None None None)));
    ((s "audio/ac3"), None, (Some (RFC 4184 None None None)));
    ((s "audio/amr"), None, (Some (RFC 4867 None None None)));
    ((s "audio/amr-wb"), None, (Some (RFC 4867 None None None)));
    ((s "audio/amr-wb+"), None, (Some (RFC 4352 None None None)));
    ((s "audio/aptx"), None, (Some (RFC 7310 None None None)));
    ((s "audio/asc"), None, (Some (RFC 6295 None None None)));
    ((s "audio/atrac-advanced-lossless"), None, (Some (RFC 5584 None None None)));
    ((s "audio/atrac-x"), None, (Some (RFC 5584 None None None)));
    ((s "audio/atrac3"), None, (Some (RFC 5584 None None None)));
    ((s "audio/basic"), None, (Some (RFC 2045 None None None)));
    ((s "audio/bv16"), None, (Some (RFC 4298 None None None)));
    ((s "audio/bv32"), None, (Some (RFC 4298 None None None)));
    ((s "audio/clearmode"), None, (Some (RFC 4040 None None None)));
    ((s "audio/cn"), None, (Some (RFC 3389 None None None)));
    ((s "audio/dat12"), None, (Some (RFC 3190 None None None)));
    ((s "audio/dls"), None, (Some (RFC 4613 None None None)));
    ((s "audio/dsr-es201108"), None, (Some (RFC 3557 None None None)));
    ((s "audio/dsr-es202050"), None, (Some (RFC 4060 None None None)));
    ((s "audio/dsr-es202211"), None, (Some (RFC 4060 None None None)));
    ((s "audio/dsr-es202212"), None, (Some (RFC 4060 None None None)));
    ((s "audio/dv"), None, (Some (RFC 6469 None None None)));
    ((s "audio/dvi4"), None, (Some (RFC 4856 None None None)));
    ((s "audio/eac3"), None, (Some (RFC 4598 None None None)));
    ((s "audio/encaprtp"), None, (Some (RFC 6849 None None None)));
    ((s "audio/evrc"), None, (Some (RFC 4788 None None None)));
    ((s "audio/evrc-qcp"), None, (Some (RFC 3625 None None None)));
    ((s "audio/evrc0"), None, (Some (RFC 4788 None None None)));
    ((s "audio/evrc1"), None, (Some (RFC 4788 None None None)));
    ((s "audio/evrcb"), None, (Some (RFC 5188 None None None)));
    ((s "audio/evrcb0"), None, (Some (RFC 5188 None None None)));
    ((s "audio/evrcb1"), None, (Some (RFC 4788 None None None)));
    ((s "audio/evrcnw"), None, (Some (RFC 6884 None None None)));
    ((s "audio/evrcnw0"), None, (Some (RFC 6884 None None None)));
    ((s "audio/evrcnw1"), None, (Some (RFC 6884 None None None)));
    ((s "audio/evrcwb"), None, (Some (RFC 5188 None None None)));
    ((s "audio/evrcwb0"), None, (Some (RFC 5188 None None None)));
    ((s "audio/evrcwb1"), None, (Some (RFC 5188 None None None)));
    ((s "audio/example"), None, (Some (RFC 4735 None None None)));
    ((s "audio/fwdred"), None, (Some (RFC 6354 None None None)));
    ((s "audio/g711-0"), None, (Some (RFC 7655 None None None)));
    ((s "audio/g719"), None, (Some (RFC 5404 None None None)));
    ((s "audio/g722"), None, (Some (RFC 4856 None None None)));
    ((s "audio/g7221"), None, (Some (RFC 5577 None None None)));
    ((s "audio/g723"), None, (Some (RFC 4856 None None None)));
    ((s "audio/g726-16"), None, (Some (RFC 4856 None None None)));
    ((s "audio/g726-24"), None, (Some (RFC 4856 None None None)));
    ((s "audio/g726-32"), None, (Some (RFC 4856 None None None)));
    ((s "audio/g726-40"), None, (Some (RFC 4856 None None None)));
    ((s "audio/g728"), None, (Some (RFC 4856 None None None)));
    ((s "audio/g729"), None, (Some (RFC 4856 None None None)));
    ((s "audio/g7291"), None, (Some (RFC 4749 None None None)));
    ((s "audio/g729d"), None, (Some (RFC 4856 None None None)));
    ((s "audio/g729e"), None, (Some (RFC 4856 None None None)));
    ((s "audio/gsm"), None, (Some (RFC 4856 None None None)));
    ((s "audio/gsm-efr"), None, (Some (RFC 4856 None None None)));
    ((s "audio/gsm-hr-08"), None, (Some (RFC 5993 None None None)));
    ((s "audio/ilbc"), None, (Some (RFC 3952 None None None)));
    ((s "audio/ip-mr_v2.5"), None, (Some (RFC 6262 None None None)));
    ((s "audio/l16"), None, (Some (RFC 4856 None None None)));
    ((s "audio/l20"), None, (Some (RFC 3190 None None None)));
    ((s "audio/l24"), None, (Some (RFC 3190 None None None)));
    ((s "audio/l8"), None, (Some (RFC 4856 None None None)));
    ((s "audio/lpc"), None, (Some (RFC 4856 None None None)));
    ((s "audio/melp"), None, (Some (RFC 8130 None None None)));
    ((s "audio/melp1200"), None, (Some (RFC 8130 None None None)));
    ((s "audio/melp2400"), None, (Some (RFC 8130 None None None)));
    ((s "audio/melp600"), None, (Some (RFC 8130 None None None)));
    ((s "audio/mobile-xmf"), None, (Some (RFC 4723 None None None)));
    ((s "audio/mp4"), None, (Some (RFC 4337 None None None)));
    ((s "audio/mp4a-latm"), None, (Some (RFC 6416 None None None)));
    ((s "audio/mpa"), None, (Some (RFC 3555 None None None)));
    ((s "audio/mpa-robust"), None, (Some (RFC 5219 None None None)));
    ((s "audio/mpeg"), None, (Some (RFC 3003 None None None)));
    ((s "audio/mpeg4-generic"), None, (Some (RFC 3640 None None None)));
    ((s "audio/ogg"), None, (Some (RFC 5334 None None None)));
    ((s "audio/opus"), None, (Some (RFC 7587 None None None)));
    ((s "audio/parityfec"), None, (Some (RFC 5109 None None None)));
    ((s "audio/pcma"), None, (Some (RFC 4856 None None None)));
    ((s "audio/pcma-wb"), None, (Some (RFC 5391 None None None)));
    ((s "audio/pcmu"), None, (Some (RFC 4856 None None None)));
    ((s "audio/pcmu-wb"), None, (Some (RFC 5391 None None None)));
    ((s "audio/qcelp"), None, (Some (RFC 3555 None None None)));
    ((s "audio/raptorfec"), None, (Some (RFC 6682 None None None)));
    ((s "audio/red"), None, (Some (RFC 3555 None None None)));
    ((s "audio/rtp-midi"), None, (Some (RFC 6295 None None None)));
    ((s "audio/rtploopback"), None, (Some (RFC 6849 None None None)));
    ((s "audio/rtx"), None, (Some (RFC 4588 None None None)));
    ((s "audio/smv"), None, (Some (RFC 3558 None None None)));
    ((s "audio/smv-qcp"), None, (Some (RFC 3625 None None None)));
    ((s "audio/smv0"), None, (Some (RFC 3558 None None None)));
    ((s "audio/speex"), None, (Some (RFC 5574 None None None)));
    ((s "audio/t140c"), None, (Some (RFC 4351 None None None)));
    ((s "audio/t38"), None, (Some (RFC 4612 None None None)));
    ((s "audio/telephone-event"), None, (Some (RFC 4733 None None None)));
    ((s "audio/tone"), None, (Some (RFC 4733 None None None)));
    ((s "audio/uemclip"), None, (Some (RFC 5686 None None None)));
    ((s "audio/ulpfec"), None, (Some (RFC 5109 None None None)));
    ((s "audio/vdvi"), None, (Some (RFC 4856 None None None)));
    ((s "audio/vmr-wb"), None, (Some (RFC 4348 None None None)));
    ((s "audio/vorbis"), None, (Some (RFC 5215 None None None)));
    ((s "audio/vorbis-config"), None, (Some (RFC 5215 None None None)));
    ((s "font/collection"), None, (Some (RFC 8081 None None None)));
    ((s "font/otf"), None, (Some (RFC 8081 None None None)));
    ((s "font/sfnt"), None, (Some (RFC 8081 None None None)));
    ((s "font/ttf"), None, (Some (RFC 8081 None None None)));
    ((s "font/woff"), None, (Some (RFC 8081 None None None)));
    ((s "font/woff2"), None, (Some (RFC 8081 None None None)));
    ((s "image/bmp"), None, (Some (RFC 7903 None None None)));
    ((s "image/emf"), None, (Some (RFC 7903 None None None)));
    ((s "image/example"), None, (Some (RFC 4735 None None None)));
    ((s "image/fits"), None, (Some (RFC 4047 None None None)));
    ((s "image/g3fax"), None, (Some (RFC 1494 None None None)));
    ((s "image/gif"), None, (Some (RFC 2045 None None None)));
    ((s "image/ief"), None, (Some (RFC 1314 None None None)));
    ((s "image/jp2"), None, (Some (RFC 3745 None None None)));
    ((s "image/jpeg"), None, (Some (RFC 2045 None None None)));
    ((s "image/jpm"), None, (Some (RFC 3745 None None None)));
    ((s "image/jpx"), None, (Some (RFC 3745 None None None)));
    ((s "image/ktx"), None, (Some (Document None (s "http://www.khronos.org/opengles/sdk/tools/KTX/file_format_spec/#mimeregistration"))));
    ((s "image/svg+xml"), None, (Some (Document None (s "http://www.w3.org/TR/SVG/mimereg.html"))));
    ((s "image/t38"), None, (Some (RFC 3362 None None None)));
    ((s "image/tiff"), None, (Some (RFC 3302 None None None)));
    ((s "image/tiff-fx"), None, (Some (RFC 3950 None None None)));
    ((s "image/wmf"), None, (Some (RFC 7903 None None None)));
    ((s "image/x-emf"), None, (Some (RFC 7903 None None None)));
    ((s "image/x-wmf"), None, (Some (RFC 7903 None None None)));
    ((s "message/cpim"), None, (Some (RFC 3862 None None None)));
    ((s "message/delivery-status"), None, (Some (RFC 1894 None None None)));
    ((s "message/disposition-notification"), None, (Some (RFC 8098 None None None)));
    ((s "message/example"), None, (Some (RFC 4735 None None None)));
    ((s "message/external-body"), None, (Some (RFC 2045 None None None)));
    ((s "message/feedback-report"), None, (Some (RFC 5965 None None None)));
    ((s "message/global"), None, (Some (RFC 6532 None None None)));
    ((s "message/global-delivery-status"), None, (Some (RFC 6533 None None None)));
    ((s "message/global-disposition-notification"), None, (Some (RFC 6533 None None None)));
    ((s "message/global-headers"), None, (Some (RFC 6533 None None None)));
    ((s "message/http"), None, (Some (RFC 7230 None None None)));
    ((s "message/imdn+xml"), None, (Some (RFC 5438 None None None)));
    ((s "message/news"), None, (Some (RFC 5537 None None None)));
    ((s "message/partial"), None, (Some (RFC 2045 None None None)));
    ((s "message/rfc822"), None, (Some (RFC 2045 None None None)));
    ((s "message/s-http"), None, (Some (RFC 2660 None None None)));
    ((s "message/sip"), None, (Some (RFC 3261 None None None)));
    ((s "message/sipfrag"), None, (Some (RFC 3420 None None None)));
    ((s "message/tracking-status"), None, (Some (RFC 3886 None None None)));
    ((s "model/3mf"), None, (Some (Document None (s "http://www.3mf.io/specification"))));
    ((s "model/example"), None, (Some (RFC 4735 None None None)));
    ((s "model/mesh"), None, (Some (RFC 2077 None None None)));
    ((s "model/vrml"), None, (Some (RFC 2077 None None None)));
    ((s "multipart/alternative"), None, (Some (RFC 2046 None None None)));
    ((s "multipart/byteranges"), None, (Some (RFC 7233 None (Some (s "A")) None)));
    ((s "multipart/digest"), None, (Some (RFC 2046 None None None)));
    ((s "multipart/encrypted"), None, (Some (RFC 1847 None None None)));
    ((s "multipart/example"), None, (Some (RFC 4735 None None None)));
    ((s "multipart/form-data"), None, (Some (RFC 7578 None None None)));
    ((s "multipart/mixed"), None, (Some (RFC 2046 None None None)));
    ((s "multipart/multilingual"), None, (Some (RFC 8255 None None None)));
    ((s "multipart/parallel"), None, (Some (RFC 2046 None None None)));
    ((s "multipart/related"), None, (Some (RFC 2387 None None None)));
    ((s "multipart/report"), None, (Some (RFC 6522 None None None)));
    ((s "multipart/signed"), None, (Some (RFC 1847 None None None)));
    ((s "multipart/voice-message"), None, (Some (RFC 3801 None None None)));
    ((s "multipart/x-mixed-replace"), None, (Some (Document None (s "http://www.w3.org/TR/html/iana.html#multipart/x-mixed-replace"))));
    ((s "text/1d-interleaved-parityfec"), None, (Some (RFC 6015 None None None)));
    ((s "text/cache-manifest"), None, (Some (Document None (s "http://www.w3.org/TR/html/iana.html#text/cache-manifest"))));
    ((s "text/calendar"), None, (Some (RFC 5545 None None None)));
    ((s "text/css"), None, (Some (RFC 2318 None None None)));
    ((s "text/csv"), None, (Some (RFC 4180 None None None)));
    ((s "text/directory"), None, (Some (RFC 2425 None None None)));
    ((s "text/dns"), None, (Some (RFC 4027 None None None)));
    ((s "text/ecmascript"), None, (Some (RFC 4329 None None None)));
    ((s "text/encaprtp"), None, (Some (RFC 6849 None None None)));
    ((s "text/enriched"), None, (Some (RFC 1896 None None None)));
    ((s "text/event-stream"), None, (Some (Document (Some (s "Server-Sent Events")) (s "https://www.w3.org/TR/eventsource/#text-event-stream"))));
    ((s "text/example"), None, (Some (RFC 4735 None None None)));
    ((s "text/fwdred"), None, (Some (RFC 6354 None None None)));
    ((s "text/grammar-ref-list"), None, (Some (RFC 6787 None None None)));
    ((s "text/html"), None, (Some (Document None (s "http://www.w3.org/TR/html/iana.html#text/html"))));
    ((s "text/javascript"), None, (Some (RFC 4329 None None None)));
    ((s "text/markdown"), None, (Some (RFC 7763 None None None)));
    ((s "text/parameters"), None, (Some (RFC 7826 None None None)));
    ((s "text/parityfec"), None, (Some (RFC 5109 None None None)));
    ((s "text/plain"), None, (Some (RFC 2046 None None None)));
    ((s "text/raptorfec"), None, (Some (RFC 6682 None None None)));
    ((s "text/red"), None, (Some (RFC 4102 None None None)));
    ((s "text/rfc822-headers"), None, (Some (RFC 6522 None None None)));
    ((s "text/richtext"), None, (Some (RFC 2045 None None None)));
    ((s "text/rtploopback"), None, (Some (RFC 6849 None None None)));
    ((s "text/rtx"), None, (Some (RFC 4588 None None None)));
    ((s "text/sgml"), None, (Some (RFC 1874 None None None)));
    ((s "text/t140"), None, (Some (RFC 4103 None None None)));
    ((s "text/troff"), None, (Some (RFC 4263 None None None)));
    ((s "text/ulpfec"), None, (Some (RFC 5109 None None None)));
    ((s "text/uri-list"), None, (Some (RFC 2483 None None None)));
    ((s "text/vcard"), None, (Some (RFC 6350 None None None)));
    ((s "text/xml"), None, (Some (RFC 7303 None None None)));
    ((s "text/xml-external-parsed-entity"), None, (Some (RFC 7303 None None None)));
    ((s "video/1d-interleaved-parityfec"), None, (Some (RFC 6015 None None None)));
    ((s "video/3gpp"), None, (Some (RFC 3839 None None None)));
    ((s "video/3gpp-tt"), None, (Some (RFC 4396 None None None)));
    ((s "video/3gpp2"), None, (Some (RFC 4393 None None None)));
    ((s "video/bmpeg"), None, (Some (RFC 3555 None None None)));
    ((s "video/bt656"), None, (Some (RFC 3555 None None None)));
    ((s "video/celb"), None, (Some (RFC 3555 None None None)));
    ((s "video/dv"), None, (Some (RFC 6469 None None None)));
    ((s "video/encaprtp"), None, (Some (RFC 6849 None None None)));
    ((s "video/example"), None, (Some (RFC 4735 None None None)));
    ((s "video/h261"), None, (Some (RFC 4587 None None None)));
    ((s "video/h263"), None, (Some (RFC 3555 None None None)));
    ((s "video/h263-1998"), None, (Some (RFC 4629 None None None)));
    ((s "video/h263-2000"), None, (Some (RFC 4629 None None None)));
    ((s "video/h264"), None, (Some (RFC 6184 None None None)));
    ((s "video/h264-rcdo"), None, (Some (RFC 6185 None None None)));
    ((s "video/h264-svc"), None, (Some (RFC 6190 None None None)));
    ((s "video/h265"), None, (Some (RFC 7798 None None None)));
    ((s "video/jpeg"), None, (Some (RFC 3555 None None None)));
    ((s "video/jpeg2000"), None, (Some (RFC 5371 None None None)));
    ((s "video/mj2"), None, (Some (RFC 3745 None None None)));
    ((s "video/mp1s"), None, (Some (RFC 3555 None None None)));
    ((s "video/mp2p"), None, (Some (RFC 3555 None None None)));
    ((s "video/mp2t"), None, (Some (RFC 3555 None None None)));
    ((s "video/mp4"), None, (Some (RFC 4337 None None None)));
    ((s "video/mp4v-es"), None, (Some (RFC 6416 None None None)));
    ((s "video/mpeg"), None, (Some (RFC 2045 None None None)));
    ((s "video/mpeg4-generic"), None, (Some (RFC 3640 None None None)));
    ((s "video/mpv"), None, (Some (RFC 3555 None None None)));
    ((s "video/nv"), None, (Some (RFC 4856 None None None)));
    ((s "video/ogg"), None, (Some (RFC 5334 None None None)));
    ((s "video/parityfec"), None, (Some (RFC 5109 None None None)));
    ((s "video/pointer"), None, (Some (RFC 2862 None None None)));
    ((s "video/quicktime"), None, (Some (RFC 6381 None None None)));
    ((s "video/raptorfec"), None, (Some (RFC 6682 None None None)));
    ((s "video/raw"), None, (Some (RFC 4175 None None None)));
    ((s "video/rtploopback"), None, (Some (RFC 6849 None None None)));
    ((s "video/rtx"), None, (Some (RFC 4588 None None None)));
    ((s "video/smpte291"), None, (Some (RFC 8331 None None None)));
    ((s "video/smpte292m"), None, (Some (RFC 3497 None None None)));
    ((s "video/ulpfec"), None, (Some (RFC 5109 None None None)));
    ((s "video/vc1"), None, (Some (RFC 4425 None None None)));
    ((s "video/vc2"), None, (Some (RFC 8450 None None None)));
    ((s "video/vp8"), None, (Some (RFC 7741 None None None)))]);
  ("AltSvcParam", [
    ((s "ma"), None, (Some (RFC 7838 (Some (s "3.1")) None None)));
    ((s "persist"), None, (Some (RFC 7838 (Some (s "3.1")) None None)))]);
  ("AuthScheme", [
    ((s "Basic"), None, (Some (RFC 7617 None None None)));
    ((s "Bearer"), None, (Some (RFC 6750 None None None)));
    ((s "Digest"), None, (Some (RFC 7616 None None None)));
    ((s "HOBA"), None, (Some (RFC 7486 (Some (s "3")) None None)));
    ((s "Mutual"), None, (Some (RFC 8120 None None None)));
    ((s "Negotiate"), None, (Some (RFC 4559 (Some (s "3")) None None)));
    ((s "OAuth"), None, (Some (RFC 5849 (Some (s "3.5.1")) None None)));
    ((s "SCRAM-SHA-1"), None, (Some (RFC 7804 None None None)));
    ((s "SCRAM-SHA-256"), None, (Some (RFC 7804 None None None)));
    ((s "vapid"), None, (Some (RFC 8292 None None None)))]);
  ("ContentCoding", [
    ((s "aes128gcm"), None, (Some (RFC 8188 None None None)));
    ((s "br"), None, (Some (RFC 7932 None None None)));
    ((s "compress"), None, (Some (RFC 7230 (Some (s "4.2.1")) None None)));
    ((s "deflate"), None, (Some (RFC 7230 (Some (s "4.2.2")) None None)));
    ((s "exi"), None, (Some (Document (Some (s "W3C Recommendation: Efficient XML Interchange (EXI) Format")) (s "http://www.w3.org/TR/exi/"))));
    ((s "gzip"), None, (Some (RFC 7230 (Some (s "4.2.3")) None None)));
    ((s "identity"), None, (Some (RFC 7231 (Some (s "5.3.4")) None None)));
    ((s "pack200-gzip"), None, (Some (Document (Some (s "JSR 200: Network Transfer Format for Java")) (s "http://www.jcp.org/en/jsr/detail?id=200"))));
    ((s "x-compress"), None, (Some (RFC 7230 (Some (s "4.2.1")) None None)));
    ((s "x-gzip"), None, (Some (RFC 7230 (Some (s "4.2.3")) None None)));
    ((s "zstd"), None, (Some (RFC 8478 None None None)))]);
  ("HSTSDirective", [
    ((s "includeSubDomains"), None, (Some (RFC 6797 (Some (s "6.1.2")) None None)));
    ((s "max-age"), None, (Some (RFC 6797 (Some (s "6.1.1")) None None)))]);
  ("Preference", [
    ((s "depth-noroot"), None, (Some (RFC 8144 None None None)));
    ((s "handling"), None, (Some (RFC 7240 (Some (s "4.4")) None None)));
    ((s "respond-async"), None, (Some (RFC 7240 (Some (s "4.1")) None None)));
    ((s "return"), None, (Some (RFC 7240 (Some (s "4.2")) None None)));
    ((s "wait"), None, (Some (RFC 7240 (Some (s "4.3")) None None)))]);
  ("RangeUnit", [
    ((s "bytes"), None, (Some (RFC 7233 (Some (s "2.1")) None None)));
    ((s "none"), None, None)]);
  ("TransferCoding", [
    ((s "chunked"), None, (Some (RFC 7230 (Some (s "4.1")) None None)));
    ((s "compress"), None, (Some (RFC 7230 (Some (s "4.2.1")) None None)));
    ((s "deflate"), None, (Some (RFC 7230 (Some (s "4.2.2")) None None)));
    ((s "gzip"), None, (Some (RFC 7230 (Some (s "4.2.3")) None None)));
    ((s "identity"), None, None);
    ((s "x-compress"), None, (Some (RFC 7230 (Some (s "4.2.1")) None None)));
    ((s "x-gzip"), None, (Some (RFC 7230 (Some (s "4.2.2")) None None)))]);
  ("UpgradeToken", [
    ((s "HTTP"), (Some (s "Hypertext Transfer Protocol")), (Some (RFC 7230 (Some (s "2.6")) None None)));
    ((s "TLS"), (Some (s "Transport Layer Security")), (Some (RFC 2817 None None None)));
    ((s "WebSocket"), (Some (s "The Web Socket Protocol")), (Some (RFC 6455 None None None)));
    ((s "h2c"), (Some (s "Hypertext Transfer Protocol version 2 (HTTP/2)")), (Some (RFC 7540 (Some (s "3.2")) None None)));
    ((s "websocket"), (Some (s "The Web Socket Protocol")), (Some (RFC 6455 None None None)))]);
  ("WarnCode", [
    ((s "110"), (Some (s "Response is Stale")), (Some (RFC 7234 (Some (s "5.5.1")) None None)));
    ((s "111"), (Some (s "Revalidation Failed")), (Some (RFC 7234 (Some (s "5.5.2")) None None)));
    ((s "112"), (Some (s "Disconnected Operation")), (Some (RFC 7234 (Some (s "5.5.3")) None None)));
    ((s "113"), (Some (s "Heuristic Expiration")), (Some (RFC 7234 (Some (s "5.5.4")) None None)));
    ((s "199"), (Some (s "Miscellaneous Warning")), (Some (RFC 7234 (Some (s "5.5.5")) None None)));
    ((s "214"), (Some (s "Transformation Applied")), (Some (RFC 7234 (Some (s "5.5.6")) None None)));
    ((s "299"), (Some (s "Miscellaneous Persistent Warning")), (Some (RFC 7234 (Some (s "5.5.7")) None None)))])].
