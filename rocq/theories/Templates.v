(** The texts of notices (httpolice/notices.xml, as httpolice/notice.py:45-165 gives
    access to them).  This file is made from notices.xml by a script. *)
From Coq Require Import String.
From Verif Require Import Base Citation.
Open Scope nat_scope.
Open Scope list_scope.
Unset Strict Implicit.

(** What [content] has (httpolice/notice.py:73-91): text, already stripped at the ends of
    the element; something known in advance, by its class and text, and whether it
    refers to the message (144-153; the attribute [ref]); a reference to the context
    (107-115); a citation with a quote (123-142). *)
Inductive elem := Words (x : str) | Known (cls : string) (x : str) (refers : bool) | Datum (path : list string) | Cite (c : cite) (quote : list elem).
(** A piece of an [explanation] (httpolice/notice.py:58-70): a paragraph, the details of an
    exception, or a reference that is not shown.  A citation outside of a paragraph is in one of
    its own; white space after it, which [copy.deepcopy] copies too, is left out. *)
Inductive block := Para (l : list elem) | Exception_ | Pointer (path : list string).

Local Open Scope string_scope.
Local Open Scope list_scope.
Local Open Scope N_scope.
(** httpolice/notices.xml:27-2270: the title and the explanation of each notice. *)
Definition templates : list (N * (list elem * list block)) := [
  (1000, ([Words (s "Syntax error in "); Datum ["place"]; Words (s " header")],
    [Exception_]));
  (1001, ([Words (s "Final "); Known "FieldName" (s "Transfer-Encoding") true; Words (s " must be " ++ [8216%N]); Known "TransferCoding" (s "chunked") true; Words ([8217%N])],
    [Para [Cite (RFC 7230 (Some (s "3.3.1")) None None) [Words (s "If any transfer coding" ++ [10%N] ++ s "   other than "); Known "TransferCoding" (s "chunked") true; Words (s " is applied to a request payload body, the sender" ++ [10%N] ++ s "   MUST apply "); Known "TransferCoding" (s "chunked") true; Words (s " as the final transfer coding to ensure that the" ++ [10%N] ++ s "   message is properly framed.")]]]));
  (1002, ([Known "FieldName" (s "Transfer-Encoding") true; Words (s " can" ++ [8217%N] ++ s "t have " ++ [8216%N]); Known "TransferCoding" (s "chunked") true; Words ([8217%N] ++ s " twice")],
    [Para [Cite (RFC 7230 (Some (s "3.3.1")) None None) [Words (s "A sender MUST" ++ [10%N] ++ s "   NOT apply "); Known "TransferCoding" (s "chunked") true; Words (s " more than once to a message body (i.e., chunking an" ++ [10%N] ++ s "   already chunked message is not allowed).")]]]));
  (1003, ([Words (s "Not decoding "); Known "FieldName" (s "Transfer-Encoding") true; Words (s ": "); Datum ["coding"]],
    [Para [Words (s "HTTPolice does not know how to decode the "); Datum ["coding"]; Words (s " transfer coding. (This doesn" ++ [8217%N] ++ s "t mean that it" ++ [8217%N] ++ s "s wrong.)")]]));
  (1004, ([Words (s "Message is incomplete according to "); Known "FieldName" (s "Content-Length") true],
    [Para [Words (s "This message" ++ [8217%N] ++ s "s "); Known "FieldName" (s "Content-Length") true; Words (s " header indicates that the body is "); Datum ["msg"; "headers"; "content_length"; "value"]; Words (s " bytes long, but there are fewer bytes remaining on the stream "); Datum ["error"; "name"]; Words (s ".")]]));
  (1005, ([Words (s "Malformed "); Known "FieldName" (s "Transfer-Encoding") true; Words (s ": "); Known "TransferCoding" (s "chunked") true],
    [Exception_]));
  (1006, ([Words (s "Malformed request heading")],
    [Exception_]));
  (1007, ([Words (s "Stop parsing request stream")],
    [Para [Words (s "Due to previous notices, the data beginning at byte "); Datum ["offset"]; Words (s " on the request stream "); Datum ["stream"; "name"]; Words (s " will not be parsed.")]]));
  (1008, ([Words (s "Not enough requests")],
    [Para [Words (s "There are unparsed bytes remaining on the response stream "); Datum ["stream"; "name"]; Words (s ", but no requests that would correspond to them. HTTPolice will try to parse and analyze the remaining responses on their own.")]]));
  (1009, ([Words (s "Malformed response heading")],
    [Exception_]));
  (1010, ([Words (s "Stop parsing response stream")],
    [Para [Words (s "Due to previous notices, the data beginning at byte "); Datum ["offset"]; Words (s " on the response stream "); Datum ["stream"; "name"]; Words (s " will not be parsed.")]]));
  (1011, ([Words (s "Switching protocols")],
    [Para [Words (s "The "); Known "StatusCode" (s "101") true; Words (s " status code means that the connection is switching to a different protocol. HTTPolice will not parse the rest of the streams.")]]));
  (1012, ([Words (s "Switching to a tunnel")],
    [Para [Words (s "A "); Datum ["msg"; "status"]; Words (s " response to a "); Known "Method" (s "CONNECT") true; Words (s " request means that the connection is becoming a tunnel. HTTPolice will not parse the remainder of the streams.")]]));
  (1013, ([Words (s "Multiple "); Datum ["header"]; Words (s " headers are forbidden")],
    [Para [Cite (RFC 7230 (Some (s "3.2.2")) None None) [Words (s "A sender MUST NOT generate multiple header fields with the same field" ++ [10%N] ++ s "   name in a message unless either the entire field value for that" ++ [10%N] ++ s "   header field is defined as a comma-separated list [i.e., #(values)]" ++ [10%N] ++ s "   or the header field is a well-known exception (as noted below).")]];
     Pointer ["entries"]]));
  (1014, ([Words (s "RWS in "); Datum ["place"]; Words (s " should be a single space")],
    [Para [Words (s "The syntax of "); Datum ["place"]; Words (s " includes the rule named RWS. It should be produced as just a single space, but here it was "); Datum ["num"]; Words (s " characters. See "); Cite (RFC 7230 (Some (s "3.2.3")) None None) []; Words (s ".")]]));
  (1015, ([Words (s "Bad whitespace (BWS) in "); Datum ["place"]],
    [Para [Words (s "The syntax of "); Datum ["place"]; Words (s " includes the rule named BWS, which is whitespace allowed for historical reasons; it must not be produced by current implementations. See "); Cite (RFC 7230 (Some (s "3.2.3")) None None) []; Words (s ".")]]));
  (1016, ([Words (s "Obsolete line folding in headers")],
    [Para [Words (s "This message uses line folding (the " ++ [8220%N] ++ s "obs-fold" ++ [8221%N] ++ s " rule) to split one header field over several physical lines, but this is deprecated and prohibited in most cases. See "); Cite (RFC 7230 (Some (s "3.2.4")) None None) []; Words (s ".")]]));
  (1017, ([Words (s "Strange escaping in "); Datum ["place"]],
    [Para [Words (s "This message uses the " ++ [8220%N] ++ s "quoted-pair" ++ [8221%N] ++ s " rule to escape the character "); Datum ["char"]; Words (s " in a context where this escaping is unnecessary and should not be used. See "); Cite (RFC 7230 (Some (s "3.2.6")) None None) []; Words (s ".")];
     Para [Words (s "If a literal backslash \ was intended here, it must itself be escaped as \\.")]]));
  (1018, ([Known "FieldName" (s "Transfer-Encoding") true; Words (s " is forbidden in a "); Datum ["msg"; "status"]; Words (s " response")],
    [Para [Cite (RFC 7230 (Some (s "3.3.1")) None None) [Words (s "A server MUST NOT send a Transfer-Encoding header field in any" ++ [10%N] ++ s "   response with a status code of 1xx (Informational) or 204 (No" ++ [10%N] ++ s "   Content).")]]]));
  (1019, ([Known "FieldName" (s "Transfer-Encoding") true; Words (s " is forbidden in a "); Datum ["msg"; "status"]; Words (s " response to "); Known "Method" (s "CONNECT") true],
    [Para [Cite (RFC 7230 (Some (s "3.3.1")) None None) [Words (s "A server MUST NOT send a Transfer-Encoding header field in" ++ [10%N] ++ s "   any 2xx (Successful) response to a CONNECT request")]]]));
  (1020, ([Words (s "Can" ++ [8217%N] ++ s "t have both "); Known "FieldName" (s "Transfer-Encoding") true; Words (s " and "); Known "FieldName" (s "Content-Length") true],
    [Para [Cite (RFC 7230 (Some (s "3.3.2")) None None) [Words (s "A sender MUST NOT send a Content-Length header field in any message" ++ [10%N] ++ s "   that contains a Transfer-Encoding header field.")]]]));
  (1021, ([Datum ["msg"; "method"]; Words (s " request should have "); Known "FieldName" (s "Content-Length") true],
    [Para [Cite (RFC 7230 (Some (s "3.3.2")) None None) [Words (s "A user agent SHOULD send a Content-Length in a request message when" ++ [10%N] ++ s "   no "); Known "FieldName" (s "Transfer-Encoding") true; Words (s " is sent and the request method defines a meaning" ++ [10%N] ++ s "   for an enclosed payload body.  For example, a Content-Length header" ++ [10%N] ++ s "   field is normally sent in a "); Known "Method" (s "POST") true; Words (s " request even when the value is 0" ++ [10%N] ++ s "   (indicating an empty payload body).")]]]));
  (1022, ([Words (s "Empty "); Datum ["msg"; "method"]; Words (s " request shouldn" ++ [8217%N] ++ s "t have "); Known "FieldName" (s "Content-Length") true],
    [Para [Cite (RFC 7230 (Some (s "3.3.2")) None None) [Words (s "A user agent SHOULD NOT send a" ++ [10%N] ++ s "   Content-Length header field when the request message does not contain" ++ [10%N] ++ s "   a payload body and the method semantics do not anticipate such a" ++ [10%N] ++ s "   body.")]]]));
  (1023, ([Known "FieldName" (s "Content-Length") true; Words (s " is forbidden in a "); Datum ["msg"; "status"]; Words (s " response")],
    [Para [Cite (RFC 7230 (Some (s "3.3.2")) None None) [Words (s "A server MUST NOT send a Content-Length header field in any response" ++ [10%N] ++ s "   with a status code of 1xx (Informational) or 204 (No Content).")]]]));
  (1024, ([Known "FieldName" (s "Content-Length") true; Words (s " is forbidden in a "); Datum ["msg"; "status"]; Words (s " response to "); Known "Method" (s "CONNECT") true],
    [Para [Cite (RFC 7230 (Some (s "3.3.2")) None None) [Words (s "A" ++ [10%N] ++ s "   server MUST NOT send a Content-Length header field in any 2xx" ++ [10%N] ++ s "   (Successful) response to a CONNECT request (Section 4.3.6 of" ++ [10%N] ++ s "   [RFC7231]).")]]]));
  (1025, ([Words (s "Response delimited only by closing the connection")],
    [Para [Words (s "This response has no "); Known "FieldName" (s "Content-Length") true; Words (s " header and no " ++ [8220%N]); Known "FieldName" (s "Transfer-Encoding") true; Words (s ": "); Known "TransferCoding" (s "chunked") true; Words ([8221%N] ++ s " that would delimit its body. Therefore, the body is assumed to consist of everything the server sends until closing the connection. But then the client cannot be sure that it received the entire response (that there were no network failures).")];
     Para [Words (s "See "); Cite (RFC 7230 (Some (s "3.3.3")) None None) []; Words (s ".")]]));
  (1026, ([Datum ["entry"]; Words (s " is forbidden in a trailer")],
    [Para [Cite (RFC 7230 (Some (s "4.1.2")) None None) [Words (s "A sender MUST NOT generate a trailer that contains a field necessary" ++ [10%N] ++ s "   for message framing (e.g., "); Known "FieldName" (s "Transfer-Encoding") false; Words (s " and "); Known "FieldName" (s "Content-Length") false; Words (s ")," ++ [10%N] ++ s "   routing (e.g., "); Known "FieldName" (s "Host") false; Words (s "), request modifiers (e.g., controls and" ++ [10%N] ++ s "   conditionals in Section 5 of [RFC7231]), authentication (e.g., see" ++ [10%N] ++ s "   [RFC7235] and [RFC6265]), response control data (e.g., see Section" ++ [10%N] ++ s "   7.1 of [RFC7231]), or determining how to process the payload (e.g.," ++ [10%N] ++ s "   "); Known "FieldName" (s "Content-Encoding") false; Words (s ", "); Known "FieldName" (s "Content-Type") false; Words (s ", "); Known "FieldName" (s "Content-Range") false; Words (s ", and "); Known "FieldName" (s "Trailer") false; Words (s ").")]]]));
  (1027, ([Words (s "Could not decode "); Known "FieldName" (s "Transfer-Encoding") true; Words (s ": "); Datum ["coding"]],
    [Exception_]));
  (1028, ([Words ([8220%N]); Known "FieldName" (s "TE") true; Words (s ": "); Known "TransferCoding" (s "chunked") true; Words ([8221%N] ++ s " is forbidden")],
    [Para [Cite (RFC 7230 (Some (s "4.3")) None None) [Words (s "A client MUST NOT send" ++ [10%N] ++ s "   the chunked transfer coding name in TE; chunked is always acceptable" ++ [10%N] ++ s "   for HTTP/1.1 recipients.")]]]));
  (1029, ([Known "FieldName" (s "TE") true; Words (s " header requires " ++ [8220%N]); Known "FieldName" (s "Connection") true; Words (s ": TE" ++ [8221%N])],
    [Para [Cite (RFC 7230 (Some (s "4.3")) None None) [Words (s "Since the TE header field only applies to the immediate connection, a" ++ [10%N] ++ s "   sender of TE MUST also send a ""TE"" connection option within the" ++ [10%N] ++ s "   "); Known "FieldName" (s "Connection") true; Words (s " header field (Section 6.1) in order to prevent the TE" ++ [10%N] ++ s "   field from being forwarded by intermediaries that do not support its" ++ [10%N] ++ s "   semantics.")]]]));
  (1030, ([Datum ["header"]; Words (s " was not announced in the "); Known "FieldName" (s "Trailer") true; Words (s " header")],
    [Para [Cite (RFC 7230 (Some (s "4.4")) None None) [Words (s "When a message includes a message body encoded with the chunked" ++ [10%N] ++ s "   transfer coding and the sender desires to send metadata in the form" ++ [10%N] ++ s "   of trailer fields at the end of the message, the sender SHOULD" ++ [10%N] ++ s "   generate a "); Known "FieldName" (s "Trailer") true; Words (s " header field before the message body to indicate" ++ [10%N] ++ s "   which fields will be present in the trailers.")]]]));
  (1031, ([Words (s "Missing "); Known "FieldName" (s "Host") true; Words (s " header")],
    [Para [Cite (RFC 7230 (Some (s "5.4")) None None) [Words (s "A client MUST send a Host header field in all HTTP/1.1 request" ++ [10%N] ++ s "   messages.")]]]));
  (1032, ([Known "FieldName" (s "Host") true; Words (s " should be the first header")],
    [Para [Cite (RFC 7230 (Some (s "5.4")) None None) [Words (s "Since the Host field-value is critical information for handling a" ++ [10%N] ++ s "   request, a user agent SHOULD generate Host as the first header field" ++ [10%N] ++ s "   following the request-line.")]]]));
  (1033, ([Words (s "Request with a bad "); Known "FieldName" (s "Host") false; Words (s " header must be rejected")],
    [Para [Cite (RFC 7230 (Some (s "5.4")) None None) [Words (s "A server MUST respond with a "); Known "StatusCode" (s "400") true; Words (s " (Bad Request) status code to any" ++ [10%N] ++ s "   HTTP/1.1 request message that lacks a Host header field and to any" ++ [10%N] ++ s "   request message that contains more than one Host header field or a" ++ [10%N] ++ s "   Host header field with an invalid field-value.")]];
     Pointer ["msg"; "status"];
     Pointer ["msg"; "request"; "version"];
     Pointer ["msg"; "request"; "headers"; "host"]]));
  (1034, ([Words ([8220%N]); Known "FieldName" (s "Connection") true; Words (s ": "); Datum ["header"]; Words ([8221%N] ++ s " is forbidden")],
    [Para [Cite (RFC 7230 (Some (s "5.4")) None None) [Words (s "A sender MUST NOT send a connection option corresponding to a header" ++ [10%N] ++ s "   field that is intended for all recipients of the payload.  For" ++ [10%N] ++ s "   example, "); Known "FieldName" (s "Cache-Control") true; Words (s " is never appropriate as a connection option" ++ [10%N] ++ s "   (Section 5.2 of [RFC7234]).")]]]));
  (1035, ([Words (s "Deprecated media type "); Datum ["msg"; "headers"; "content_type"; "value"]],
    [Para [Words (s "According to "); Known "FieldName" (s "Content-Type") true; Words (s ", this message" ++ [8217%N] ++ s "s body is of type "); Datum ["msg"; "headers"; "content_type"; "value"]; Words (s ", which is listed as " ++ [8220%N] ++ s "deprecated" ++ [8221%N] ++ s " or " ++ [8220%N] ++ s "obsoleted" ++ [8221%N] ++ s " in the "); Cite (Document (Some (s "IANA media types registry")) (s "https://www.iana.org/assignments/media-types/media-types.xml")) []; Words (s ".")]]));
  (1036, ([Words (s "Not decoding "); Known "FieldName" (s "Content-Encoding") true; Words (s ": "); Datum ["coding"]],
    [Para [Words (s "HTTPolice does not know how to decode the "); Datum ["coding"]; Words (s " content coding. (This doesn" ++ [8217%N] ++ s "t mean that it" ++ [8217%N] ++ s "s wrong.)")]]));
  (1037, ([Words (s "Could not decode "); Known "FieldName" (s "Content-Encoding") true; Words (s ": "); Datum ["coding"]],
    [Exception_]));
  (1038, ([Words (s "Bad JSON body")],
    [Para [Words (s "According to "); Known "FieldName" (s "Content-Type") true; Words (s ", this message" ++ [8217%N] ++ s "s body is JSON, but HTTPolice tried to parse it as JSON and got the following error:")];
     Exception_;
     Pointer ["msg"; "displayable_body"]]));
  (1039, ([Words (s "Bad XML body")],
    [Para [Words (s "According to "); Known "FieldName" (s "Content-Type") true; Words (s ", this message" ++ [8217%N] ++ s "s body is XML, but HTTPolice tried to parse it as XML and got the following error:")];
     Exception_;
     Pointer ["msg"; "displayable_body"]]));
  (1040, ([Words (s "Bad URL-encoded body")],
    [Para [Words (s "According to "); Known "FieldName" (s "Content-Type") true; Words (s ", this message" ++ [8217%N] ++ s "s body is URL-encoded. But it doesn" ++ [8217%N] ++ s "t look like a proper URL-encoded string, as defined by "); Cite (Document (Some (s "HTML5")) (s "https://www.w3.org/TR/html5/forms.html#url-encoded-form-data")) []; Words (s ", because it contains the character: "); Datum ["char"]; Words (s ".")];
     Para [Words (s "This often means that the "); Known "FieldName" (s "Content-Type") true; Words (s " header is wrong.")];
     Pointer ["msg"; "displayable_body"]]));
  (1041, ([Words (s "Body should have a "); Known "FieldName" (s "Content-Type") true],
    [Para [Cite (RFC 7231 (Some (s "3.1.1.5")) None None) [Words (s "A sender that generates a message containing a payload body SHOULD" ++ [10%N] ++ s "   generate a Content-Type header field in that message unless the" ++ [10%N] ++ s "   intended media type of the enclosed representation is unknown to the" ++ [10%N] ++ s "   sender.")]];
     Pointer ["msg"; "displayable_body"]]));
  (1042, ([Words (s "Duplicate " ++ [8216%N]); Datum ["param"]; Words ([8217%N] ++ s " parameter in "); Known "FieldName" (s "Content-Type") true],
    [Para [Cite (RFC 6838 (Some (s "4.3")) None None) [Words (s "It is an error for a specific" ++ [10%N] ++ s "   parameter to be specified more than once.")]]]));
  (1045, ([Words (s "Syntax error in request target")],
    [Exception_;
     Para [Words (s "See also "); Cite (RFC 7230 (Some (s "5.3")) None None) []; Words (s ".")];
     Pointer ["msg"; "target"]]));
  (1046, ([Words (s "Proxied response needs a "); Known "FieldName" (s "Via") true; Words (s " header")],
    [Para [Words (s "According to "); Cite (RFC 7230 (Some (s "5.7.1")) None None) []; Words (s ", a proxy must add a "); Known "FieldName" (s "Via") true; Words (s " header to each response that it forwards.")]]));
  (1047, ([Words (s "Close-delimited response should have " ++ [8220%N]); Known "FieldName" (s "Connection") true; Words (s ": close" ++ [8221%N])],
    [Para [Words (s "When a response is delimited only by closing the connection, it should have a "); Known "FieldName" (s "Connection") true; Words (s " header with a " ++ [8216%N] ++ s "close" ++ [8217%N] ++ s " option. See "); Cite (RFC 7230 (Some (s "6.3")) None None) []; Words (s " and "); Cite (RFC 7230 (Some (s "6.6")) None None) []; Words (s ".")]]));
  (1048, ([Known "StatusCode" (s "101") true; Words (s " response needs an "); Known "FieldName" (s "Upgrade") true; Words (s " header")],
    [Para [Cite (RFC 7230 (Some (s "6.7")) None None) [Words (s "A server that sends a 101 (Switching Protocols) response MUST send an" ++ [10%N] ++ s "   "); Known "FieldName" (s "Upgrade") true; Words (s " header field to indicate the new protocol(s) to which the" ++ [10%N] ++ s "   connection is being switched")]]]));
  (1049, ([Words (s "Switching to a protocol that was not requested")],
    [Para [Cite (RFC 7230 (Some (s "6.7")) None None) [Words (s "A server MUST NOT switch to a protocol that was not indicated" ++ [10%N] ++ s "   by the client in the corresponding request's "); Known "FieldName" (s "Upgrade") false; Words (s " header field.")]];
     Pointer ["msg"; "status"];
     Pointer ["msg"; "headers"; "upgrade"];
     Pointer ["msg"; "request"; "headers"; "upgrade"]]));
  (1050, ([Known "FieldName" (s "Upgrade") true; Words (s " header requires " ++ [8220%N]); Known "FieldName" (s "Connection") true; Words (s ": upgrade" ++ [8221%N])],
    [Para [Cite (RFC 7230 (Some (s "6.7")) None None) [Words (s "When "); Known "FieldName" (s "Upgrade") true; Words (s " is sent, the sender MUST also send a "); Known "FieldName" (s "Connection") true; Words (s " header" ++ [10%N] ++ s "   field (Section 6.1) that contains an ""upgrade"" connection option, in" ++ [10%N] ++ s "   order to prevent Upgrade from being accidentally forwarded by" ++ [10%N] ++ s "   intermediaries that might not implement the listed protocols.")]]]));
  (1051, ([Known "StatusCode" (s "101") true; Words (s " response to an HTTP/1.0 request is forbidden")],
    [Para [Cite (RFC 7230 (Some (s "6.7")) None None) [Words (s "A" ++ [10%N] ++ s "   server MUST ignore an "); Known "FieldName" (s "Upgrade") false; Words (s " header field that is received in an" ++ [10%N] ++ s "   HTTP/1.0 request.")]];
     Pointer ["msg"; "request"; "version"]]));
  (1052, ([Datum ["header"]; Words (s " makes no sense in a "); Datum ["msg"; "status"]; Words (s " response")],
    [Para [Words (s "The "); Datum ["header"]; Words (s " header provides representation metadata, but there can be no representation associated with a "); Datum ["msg"; "status"]; Words (s " response. The header should probably be removed.")]]));
  (1053, ([Datum ["header"]; Words (s " makes no sense in an empty request")],
    [Para [Words (s "The "); Datum ["header"]; Words (s " header provides representation metadata. It would make sense in a request with a body, but this one has no body.")];
     Para [Words (s "See also "); Cite (RFC 7231 (Some (s "3.1")) None None) []; Words (s ".")]]));
  (1054, ([Known "FieldName" (s "Trailer") true; Words (s " header makes no sense without a chunked body")],
    [Para [Words (s "The "); Known "FieldName" (s "Trailer") true; Words (s " header announces what other headers will be sent in the trailer part of a "); Known "TransferCoding" (s "chunked") true; Words (s " message. It doesn" ++ [8217%N] ++ s "t make sense here because this message does not use the chunked transfer coding.")];
     Para [Words (s "See also "); Cite (RFC 7230 (Some (s "4.1.2")) None None) []; Words (s ".")];
     Pointer ["msg"; "headers"; "transfer_encoding"]]));
  (1055, ([Words (s "Unnecessary "); Known "FieldName" (s "Content-Location") true],
    [Para [Words (s "This is a "); Datum ["msg"; "status"]; Words (s " response to a "); Datum ["msg"; "request"; "method"]; Words (s " request. By definition, its body is a representation of the requested resource. But it also has a "); Known "FieldName" (s "Content-Location") true; Words (s " header that points to the same URI as the request URI. In this case, the header provides no additional information.")];
     Para [Words (s "See also "); Cite (RFC 7231 (Some (s "3.1.4.1")) None None) []; Words (s ".")]]));
  (1056, ([Known "Method" (s "GET") true; Words (s " request with a body may cause problems")],
    [Para [Cite (RFC 7231 (Some (s "4.3.1")) None None) [Words (s "A payload within a GET request message has no defined semantics;" ++ [10%N] ++ s "   sending a payload body on a GET request might cause some existing" ++ [10%N] ++ s "   implementations to reject the request.")]];
     Pointer ["msg"; "displayable_body"]]));
  (1057, ([Known "Method" (s "HEAD") true; Words (s " request with a body may cause problems")],
    [Para [Cite (RFC 7231 (Some (s "4.3.2")) None None) [Words (s "A payload within a HEAD request message has no defined semantics;" ++ [10%N] ++ s "   sending a payload body on a HEAD request might cause some existing" ++ [10%N] ++ s "   implementations to reject the request.")]]]));
  (1058, ([Known "Method" (s "PUT") true; Words (s " request with "); Known "FieldName" (s "Content-Range") false; Words (s " must be rejected")],
    [Para [Cite (RFC 7231 (Some (s "4.3.4")) None None) [Words (s "An origin server that allows PUT on a given target resource MUST send" ++ [10%N] ++ s "   a "); Known "StatusCode" (s "400") true; Words (s " (Bad Request) response to a PUT request that contains a" ++ [10%N] ++ s "   "); Known "FieldName" (s "Content-Range") false; Words (s " header field (Section 4.2 of [RFC7233]), since the" ++ [10%N] ++ s "   payload is likely to be partial content that has been mistakenly PUT" ++ [10%N] ++ s "   as a full representation.")]];
     Pointer ["msg"; "status"];
     Pointer ["msg"; "request"; "headers"; "content_range"]]));
  (1059, ([Known "Method" (s "DELETE") true; Words (s " request with a body may cause problems")],
    [Para [Cite (RFC 7231 (Some (s "4.3.5")) None None) [Words (s "A payload within a DELETE request message has no defined semantics;" ++ [10%N] ++ s "   sending a payload body on a DELETE request might cause some existing" ++ [10%N] ++ s "   implementations to reject the request.")]];
     Pointer ["msg"; "displayable_body"]]));
  (1060, ([Words (s "Strange "); Known "FieldName" (s "Content-Location") true; Words (s " in response to "); Known "Method" (s "DELETE") true],
    [Para [Words (s "This is an ostensibly successful ("); Datum ["msg"; "status"]; Words (s ") response to a "); Known "Method" (s "DELETE") true; Words (s " request. However, according to its "); Known "FieldName" (s "Content-Location") true; Words (s " header, it carries a representation of the target resource" ++ [8212%N] ++ s "the one that should have been deleted. Either the Content-Location is wrong, or the request did not actually succeed.")]]));
  (1061, ([Known "Method" (s "CONNECT") true; Words (s " request with a body may cause problems")],
    [Para [Cite (RFC 7231 (Some (s "4.3.6")) None None) [Words (s "A payload within a CONNECT request message has no defined semantics;" ++ [10%N] ++ s "   sending a payload body on a CONNECT request might cause some existing" ++ [10%N] ++ s "   implementations to reject the request.")]];
     Pointer ["msg"; "displayable_body"]]));
  (1062, ([Known "Method" (s "OPTIONS") true; Words (s " request with a body needs "); Known "FieldName" (s "Content-Type") true],
    [Para [Cite (RFC 7231 (Some (s "4.3.7")) None None) [Words (s "A client that generates an OPTIONS request containing a payload body" ++ [10%N] ++ s "   MUST send a valid "); Known "FieldName" (s "Content-Type") true; Words (s " header field describing the" ++ [10%N] ++ s "   representation media type.")]]]));
  (1063, ([Datum ["header"]; Words (s " header is for responses")],
    [Para [Words (s "This request has the "); Datum ["header"]; Words (s " header, which is only defined for responses.")]]));
  (1064, ([Datum ["header"]; Words (s " header is for requests")],
    [Para [Words (s "This response has the "); Datum ["header"]; Words (s " header, which is only defined for requests.")]]));
  (1066, ([Words ([8220%N]); Known "FieldName" (s "Expect") true; Words (s ": 100-continue" ++ [8221%N] ++ s " is forbidden on empty requests")],
    [Para [Cite (RFC 7231 (Some (s "5.1.1")) None None) [Words (s "A client MUST NOT generate a 100-continue expectation in a request" ++ [10%N] ++ s "      that does not include a message body.")]]]));
  (1067, ([Known "FieldName" (s "Max-Forwards") true; Words (s " header is undefined for "); Datum ["msg"; "method"]; Words (s " requests")],
    [Para [Words (s "The "); Known "FieldName" (s "Max-Forwards") true; Words (s " header is only defined for "); Known "Method" (s "OPTIONS") true; Words (s " and "); Known "Method" (s "TRACE") true; Words (s " requests. "); Cite (RFC 7231 (Some (s "5.1.2")) None None) [Words (s "A recipient MAY ignore a Max-Forwards header field received with any other request methods.")]]]));
  (1068, ([Words (s "Unsecured request must not have a "); Known "FieldName" (s "Referer") true; Words (s " with " ++ [8216%N] ++ s "https:" ++ [8217%N])],
    [Para [Cite (RFC 7231 (Some (s "5.5.2")) None None) [Words (s "A user agent MUST NOT send a Referer header field in an" ++ [10%N] ++ s "   unsecured HTTP request if the referring page was received with a" ++ [10%N] ++ s "   secure protocol.")]]]));
  (1070, ([Words (s "Missing "); Known "FieldName" (s "User-Agent") true; Words (s " header")],
    [Para [Cite (RFC 7231 (Some (s "5.5.3")) None None) [Words (s "A user agent SHOULD send a User-Agent field in each request" ++ [10%N] ++ s "   unless specifically configured not to do so.")]]]));
  (1071, ([Datum ["msg"; "status"]; Words (s " response to an HTTP/1.0 request is forbidden")],
    [Para [Cite (RFC 7231 (Some (s "6.2")) None None) [Words (s "Since HTTP/1.0 did not define any 1xx status codes, a" ++ [10%N] ++ s "   server MUST NOT send a 1xx response to an HTTP/1.0 client.")]];
     Pointer ["msg"; "request"; "version"]]));
  (1072, ([Known "StatusCode" (s "201") true; Words (s " response to "); Datum ["msg"; "request"; "method"]; Words (s " makes no sense")],
    [Para [Words (s "The "); Datum ["msg"; "request"; "method"]; Words (s " method is defined as safe (read-only). But the "); Known "StatusCode" (s "201") true; Words (s " status code means that a new resource was created.")]]));
  (1073, ([Words (s "Possibly missing "); Known "FieldName" (s "Location") true; Words (s " header")],
    [Para [Words (s "This "); Known "StatusCode" (s "201") true; Words (s " response indicates that a new resource was created. Because there is no "); Known "FieldName" (s "Location") true; Words (s " header in the response, it is assumed that the created resource is the same as the request target ("); Cite (RFC 7231 (Some (s "6.3.2")) None None) []; Words (s "). But "); Known "Method" (s "POST") true; Words (s " requests are usually intended to create a sub-resource of the target. It" ++ [8217%N] ++ s "s likely that this response needs an explicit "); Known "FieldName" (s "Location") true; Words (s ".")]]));
  (1074, ([Known "StatusCode" (s "202") true; Words (s " response to "); Datum ["msg"; "request"; "method"]; Words (s " makes no sense")],
    [Para [Words (s "The "); Datum ["msg"; "request"; "method"]; Words (s " method is defined as safe (read-only). But the "); Known "StatusCode" (s "202") true; Words (s " status code means that the server started some kind of processing operation.")]]));
  (1076, ([Known "StatusCode" (s "205") true; Words (s " response must not have a body")],
    [Para [Cite (RFC 7231 (Some (s "6.3.6")) None None) [Words (s "Since the 205 status code implies that no additional content will be" ++ [10%N] ++ s "   provided, a server MUST NOT generate a payload in a 205 response.")]];
     Pointer ["msg"; "displayable_body"]]));
  (1077, ([Known "StatusCode" (s "300") true; Words (s " response should have a body")],
    [Para [Cite (RFC 7231 (Some (s "6.4.1")) None None) [Words (s "For request methods other than "); Known "Method" (s "HEAD") true; Words (s ", the server SHOULD generate a" ++ [10%N] ++ s "   payload in the 300 response containing a list of representation" ++ [10%N] ++ s "   metadata and URI reference(s) from which the user or user agent can" ++ [10%N] ++ s "   choose the one most preferred.")]]]));
  (1078, ([Known "StatusCode" (s "301") true; Words (s " response should have a "); Known "FieldName" (s "Location") true; Words (s " header")],
    [Para [Cite (RFC 7231 (Some (s "6.4.2")) None None) [Words (s "The server SHOULD generate a Location header field in the response" ++ [10%N] ++ s "   containing a preferred URI reference for the new permanent URI.")]]]));
  (1079, ([Known "StatusCode" (s "302") true; Words (s " response should have a "); Known "FieldName" (s "Location") true; Words (s " header")],
    [Para [Cite (RFC 7231 (Some (s "6.4.3")) None None) [Words (s "The server SHOULD generate a Location header field in the response" ++ [10%N] ++ s "   containing a URI reference for the different URI.")]]]));
  (1080, ([Known "StatusCode" (s "303") true; Words (s " response needs a "); Known "FieldName" (s "Location") true; Words (s " header")],
    [Para [Cite (RFC 7231 (Some (s "6.4.4")) None None) [Words (s "The 303 (See Other) status code indicates that the server is" ++ [10%N] ++ s "   redirecting the user agent to a different resource, as indicated by a" ++ [10%N] ++ s "   URI in the "); Known "FieldName" (s "Location") true; Words (s " header field, which is intended to provide an" ++ [10%N] ++ s "   indirect response to the original request.")]]]));
  (1081, ([Known "StatusCode" (s "303") true; Words (s " response should have a body")],
    [Para [Cite (RFC 7231 (Some (s "6.4.4")) None None) [Words (s "Except for responses to a "); Known "Method" (s "HEAD") true; Words (s " request, the representation of a 303" ++ [10%N] ++ s "   response ought to contain a short hypertext note with a hyperlink to" ++ [10%N] ++ s "   the same URI reference provided in the "); Known "FieldName" (s "Location") false; Words (s " header field.")]]]));
  (1082, ([Words (s "Status code "); Known "StatusCode" (s "305") true; Words (s " is deprecated")],
    [Para [Cite (RFC 7231 (Some (s "6.4.5")) None None) [Words (s "The 305 (Use Proxy) status code was defined in a previous version of" ++ [10%N] ++ s "   this specification and is now deprecated (Appendix B).")]]]));
  (1083, ([Words (s "Status code "); Known "StatusCode" (s "306") true; Words (s " is reserved")],
    [Para [Cite (RFC 7231 (Some (s "6.4.6")) None None) [Words (s "The 306 status code was defined in a previous version of this" ++ [10%N] ++ s "   specification, is no longer used, and the code is reserved.")]]]));
  (1084, ([Known "StatusCode" (s "307") true; Words (s " response should have a "); Known "FieldName" (s "Location") true; Words (s " header")],
    [Para [Cite (RFC 7231 (Some (s "6.4.7")) None None) [Words (s "The server SHOULD generate a Location header field in the response" ++ [10%N] ++ s "   containing a URI reference for the different URI.")]]]));
  (1085, ([Words (s "Redirection to the same URI")],
    [Para [Words (s "This "); Datum ["msg"; "status"]; Words (s " response includes a "); Known "FieldName" (s "Location") true; Words (s " header that points to the same URI as the request URI. So the resource redirects to itself.")];
     Pointer ["msg"; "request"; "target"]]));
  (1086, ([Datum ["msg"; "status"]; Words (s " response to server-wide "); Known "Method" (s "OPTIONS") true; Words (s " makes no sense")],
    [Para [Words (s "The "); Datum ["msg"; "status"]; Words (s " status code means that the target resource can be found at a different URI. But this was an " ++ [8220%N] ++ [160%N]); Known "Method" (s "OPTIONS") true; Words ([160%N] ++ s "*" ++ [160%N] ++ [8221%N] ++ s " request" ++ [8212%N] ++ s "it targets the entire server, not any particular resource. So the "); Datum ["msg"; "status"]; Words (s " status code makes no sense here.")];
     Para [Words (s "Perhaps the "); Known "StatusCode" (s "303") true; Words (s " status code would fit better.")];
     Pointer ["msg"; "request"; "target"]]));
  (1087, ([Datum ["msg"; "status"]; Words (s " response should include an explanation")],
    [Para [Cite (RFC 7231 (Some (s "6.5")) None None) [Words (s "Except when responding to a "); Known "Method" (s "HEAD") true; Words (s " request, the" ++ [10%N] ++ s "   server SHOULD send a representation containing an explanation of the" ++ [10%N] ++ s "   error situation, and whether it is a temporary or permanent" ++ [10%N] ++ s "   condition.")]]]));
  (1088, ([Words (s "Status code "); Known "StatusCode" (s "402") true; Words (s " is reserved")],
    [Para [Cite (RFC 7231 (Some (s "6.5.2")) None None) [Words (s "The 402 (Payment Required) status code is reserved for future use.")]]]));
  (1089, ([Known "StatusCode" (s "405") true; Words (s " response needs an "); Known "FieldName" (s "Allow") true; Words (s " header")],
    [Para [Cite (RFC 7231 (Some (s "6.5.5")) None None) [Words (s "The origin server MUST generate an" ++ [10%N] ++ s "   "); Known "FieldName" (s "Allow") true; Words (s " header field in a 405 response containing a list of the target" ++ [10%N] ++ s "   resource's currently supported methods.")]]]));
  (1090, ([Known "StatusCode" (s "406") true; Words (s " response, but request wasn" ++ [8217%N] ++ s "t negotiating")],
    [Para [Words (s "The "); Known "StatusCode" (s "406") true; Words (s " status code means that the server cannot satisfy the request" ++ [8217%N] ++ s "s content negotiation headers, such as "); Known "FieldName" (s "Accept") false; Words (s ". But this request doesn" ++ [8217%N] ++ s "t seem to have such headers.")];
     Para [Words (s "See also "); Cite (RFC 7231 (Some (s "5.3")) None None) []; Words (s ".")]]));
  (1092, ([Known "StatusCode" (s "406") true; Words (s " response should have a body")],
    [Para [Cite (RFC 7231 (Some (s "6.5.6")) None None) [Words (s "The server SHOULD generate a payload containing a list of available" ++ [10%N] ++ s "   representation characteristics and corresponding resource identifiers" ++ [10%N] ++ s "   from which the user or user agent can choose the one most" ++ [10%N] ++ s "   appropriate.")]]]));
  (1093, ([Known "FieldName" (s "User-Agent") true; Words (s " contains no actual product")],
    [Para [Words (s "This request" ++ [8217%N] ++ s "s "); Known "FieldName" (s "User-Agent") true; Words (s " header contains only the name of the underlying library, which isn" ++ [8217%N] ++ s "t very useful for identifying the request. It may be a good idea to include the name of the actual product.")];
     Para [Words (s "For example: " ++ [8220%N] ++ s "My-Product/1.0 "); Datum ["library"]; Words ([8221%N] ++ s ".")];
     Para [Words (s "Or simply " ++ [8220%N] ++ s "My-Product/1.0" ++ [8221%N] ++ s " or " ++ [8220%N] ++ s "My-Product" ++ [8221%N] ++ s ".")];
     Para [Words (s "See "); Cite (RFC 7231 (Some (s "5.5.3")) None None) []; Words (s ".")]]));
  (1094, ([Known "StatusCode" (s "408") true; Words (s " response should have " ++ [8220%N]); Known "FieldName" (s "Connection") true; Words (s ":" ++ [160%N] ++ s "close" ++ [8221%N])],
    [Para [Cite (RFC 7231 (Some (s "6.5.7")) None None) [Words (s "A server SHOULD send the ""close"" connection option" ++ [10%N] ++ s "   (Section 6.1 of [RFC7230]) in the response, since 408 implies that" ++ [10%N] ++ s "   the server has decided to close the connection rather than continue" ++ [10%N] ++ s "   waiting.")]]]));
  (1095, ([Known "StatusCode" (s "409") true; Words (s " response to "); Datum ["msg"; "request"; "method"]; Words (s " makes no sense")],
    [Para [Words (s "The "); Known "StatusCode" (s "409") true; Words (s " status code means that the request conflicted with the current state of the resource. But a "); Datum ["msg"; "request"; "method"]; Words (s " request is, by definition, safe (read-only): it must not affect the state, so there can be no conflict.")]]));
  (1096, ([Known "StatusCode" (s "409") true; Words (s " response should include an explanation")],
    [Para [Cite (RFC 7231 (Some (s "6.5.8")) None None) [Words (s "The server" ++ [10%N] ++ s "   SHOULD generate a payload that includes enough information for a user" ++ [10%N] ++ s "   to recognize the source of the conflict.")]]]));
  (1097, ([Known "StatusCode" (s "411") true; Words (s " response, but request did have "); Known "FieldName" (s "Content-Length") false],
    [Para [Words (s "The "); Known "StatusCode" (s "411") true; Words (s " status code means that the server wants to see a "); Known "FieldName" (s "Content-Length") false; Words (s " header in the request. But this request did, in fact, include a valid Content-Length of "); Datum ["msg"; "request"; "headers"; "content_length"; "value"]; Words (s ".")];
     Pointer ["msg"; "request"; "headers"; "content_length"]]));
  (1098, ([Known "StatusCode" (s "413") true; Words (s " response, but request had no body")],
    [Para [Cite (RFC 7231 (Some (s "6.5.11")) None None) [Words (s "The 413 (Payload Too Large) status code indicates that the server is" ++ [10%N] ++ s "   refusing to process a request because the request payload is larger" ++ [10%N] ++ s "   than the server is willing or able to process.")]]]));
  (1099, ([Known "StatusCode" (s "415") true; Words (s " response, but request had no body")],
    [Para [Cite (RFC 7231 (Some (s "6.5.13")) None None) [Words (s "The 415 (Unsupported Media Type) status code indicates that the" ++ [10%N] ++ s "   origin server is refusing to service the request because the payload" ++ [10%N] ++ s "   is in a format not supported by this method on the target resource.")]]]));
  (1100, ([Known "StatusCode" (s "417") true; Words (s " response, but request had no "); Known "FieldName" (s "Expect") false],
    [Para [Cite (RFC 7231 (Some (s "6.5.14")) None None) [Words (s "The 417 (Expectation Failed) status code indicates that the" ++ [10%N] ++ s "   expectation given in the request's "); Known "FieldName" (s "Expect") false; Words (s " header field" ++ [10%N] ++ s "   (Section 5.1.1) could not be met by at least one of the inbound" ++ [10%N] ++ s "   servers.")]]]));
  (1101, ([Known "StatusCode" (s "426") true; Words (s " response needs an "); Known "FieldName" (s "Upgrade") true; Words (s " header")],
    [Para [Cite (RFC 7231 (Some (s "6.5.15")) None None) [Words (s "The server MUST send an "); Known "FieldName" (s "Upgrade") true; Words (s " header field in a 426" ++ [10%N] ++ s "   response to indicate the required protocol(s)")]]]));
  (1102, ([Known "StatusCode" (s "426") true; Words (s " response, but client is ready to upgrade")],
    [Para [Words (s "In this response, the server demands that the client upgrade to "); Datum ["protocol"]; Words (s ". But the client" ++ [8217%N] ++ s "s request is already offering that same upgrade in its own "); Known "FieldName" (s "Upgrade") false; Words (s " header. The server can just send a "); Known "StatusCode" (s "101") true; Words (s " response and switch to "); Datum ["protocol"]; Words (s ".")];
     Para [Words (s "See "); Cite (RFC 7230 (Some (s "6.7")) None None) []; Words (s ".")];
     Pointer ["msg"; "headers"; "upgrade"];
     Pointer ["msg"; "request"; "headers"; "upgrade"]]));
  (1103, ([Words (s "Not proceeding with protocol upgrade")],
    [Para [Words (s "This response" ++ [8217%N] ++ s "s "); Known "FieldName" (s "Upgrade") true; Words (s " header indicates that the server is ready to upgrade to "); Datum ["protocol"]; Words (s ". But the client" ++ [8217%N] ++ s "s request is already offering that same upgrade in its own "); Known "FieldName" (s "Upgrade") false; Words (s " header. If the server actually wants to switch to "); Datum ["protocol"]; Words (s ", it should go ahead, send a "); Known "StatusCode" (s "101") true; Words (s " response, and switch.")];
     Para [Words (s "See "); Cite (RFC 7230 (Some (s "6.7")) None None) []; Words (s ".")];
     Pointer ["msg"; "request"; "headers"; "upgrade"]]));
  (1104, ([Datum ["msg"; "status"]; Words (s " response should include an explanation")],
    [Para [Cite (RFC 7231 (Some (s "6.6")) None None) [Words (s "Except when responding to a "); Known "Method" (s "HEAD") true; Words (s " request, the" ++ [10%N] ++ s "   server SHOULD send a representation containing an explanation of the" ++ [10%N] ++ s "   error situation, and whether it is a temporary or permanent" ++ [10%N] ++ s "   condition.")]]]));
  (1105, ([Known "StatusCode" (s "505") true; Words (s " response, but request had the same HTTP version")],
    [Para [Words (s "The "); Known "StatusCode" (s "505") true; Words (s " status code means that the server does not support the HTTP version used in the request" ++ [8212%N] ++ s "which is "); Datum ["msg"; "request"; "version"]; Words ([8212%N] ++ s "but the response itself is "); Datum ["msg"; "version"]; Words (s ", too.")];
     Para [Cite (RFC 7230 (Some (s "2.6")) None None) [Words (s "A server MUST NOT send" ++ [10%N] ++ s "   a version to which it is not conformant.")]]]));
  (1106, ([Known "StatusCode" (s "505") true; Words (s " response should have a body")],
    [Para [Cite (RFC 7231 (Some (s "6.6.6")) None None) [Words (s "The server SHOULD" ++ [10%N] ++ s "   generate a representation for the 505 response that describes why" ++ [10%N] ++ s "   that version is not supported and what other protocols are supported" ++ [10%N] ++ s "   by that server.")]]]));
  (1107, ([Words (s "Obsolete date-time format in "); Datum ["place"]],
    [Para [Words (s "This message" ++ [8217%N] ++ s "s "); Datum ["place"]; Words (s " uses an obsolete date-time format. See "); Cite (RFC 7231 (Some (s "7.1.1.1")) None None) []; Words (s ".")]]));
  (1108, ([Words (s "Wrong day of week in "); Datum ["place"]],
    [Para [Words (s "This message" ++ [8217%N] ++ s "s "); Datum ["place"]; Words (s " claims that "); Datum ["date"]; Words (s " is "); Datum ["claimed"]; Words (s ", but in reality it" ++ [8217%N] ++ s "s "); Datum ["actual"]; Words (s ".")]]));
  (1109, ([Known "FieldName" (s "Date") true; Words (s " header is in the future")],
    [Para [Words (s "The "); Known "FieldName" (s "Date") true; Words (s " header contains the date and time at which the message was originated. But here it seems to be in the future.")];
     Para [Words (s "This might be due to wrong timezone settings.")]]));
  (1110, ([Words (s "Missing "); Known "FieldName" (s "Date") true; Words (s " header")],
    [Para [Words (s "According to "); Cite (RFC 7231 (Some (s "7.1.1.2")) None None) []; Words (s ", every "); Datum ["msg"; "status"]; Words (s " response must have a "); Known "FieldName" (s "Date") true; Words (s " header, unless the server has no usable clock.")]]));
  (1111, ([Known "StatusCode" (s "201") true; Words (s " response can" ++ [8217%N] ++ s "t have "); Known "FieldName" (s "Location") true; Words (s " with a fragment (#)")],
    [Para [Cite (RFC 7231 (Some (s "7.1.2")) None None) [Words (s "There are circumstances in which a fragment identifier in a "); Known "FieldName" (s "Location") true; Words ([10%N] ++ s "   value would not be appropriate.  For example, the Location header" ++ [10%N] ++ s "   field in a 201 (Created) response is supposed to provide a URI that" ++ [10%N] ++ s "   is specific to the created resource.")]]]));
  (1112, ([Known "FieldName" (s "Location") true; Words (s " header is undefined for "); Datum ["msg"; "status"]; Words (s " responses")],
    [Para [Cite (RFC 7231 (Some (s "7.1.2")) None None) []; Words (s " does not define what it means for a "); Datum ["msg"; "status"]; Words (s " response to have a "); Known "FieldName" (s "Location") true; Words (s " header.")]]));
  (1113, ([Known "FieldName" (s "Retry-After") true; Words (s " is undefined for "); Datum ["msg"; "status"]; Words (s " responses")],
    [Para [Words (s "As far as HTTPolice knows, the "); Known "FieldName" (s "Retry-After") true; Words (s " header is defined for status codes 3xx, "); Known "StatusCode" (s "413") true; Words (s ", "); Known "StatusCode" (s "429") true; Words (s ", and "); Known "StatusCode" (s "503") true; Words (s ", but not for "); Datum ["msg"; "status"]; Words (s ".")]]));
  (1114, ([Known "StatusCode" (s "405") true; Words (s " response, but "); Known "FieldName" (s "Allow") true; Words (s " includes "); Datum ["msg"; "request"; "method"]],
    [Para [Words (s "The "); Known "StatusCode" (s "405") true; Words (s " status code means that the request method ("); Datum ["msg"; "request"; "method"]; Words (s ") is not allowed for this resource. But the "); Known "FieldName" (s "Allow") true; Words (s " header does include "); Datum ["msg"; "request"; "method"]; Words (s ".")]]));
  (1115, ([Known "FieldName" (s "Allow") true; Words (s " does not include "); Datum ["msg"; "request"; "method"]],
    [Para [Words (s "The "); Datum ["msg"; "status"]; Words (s " status code means that this "); Datum ["msg"; "request"; "method"]; Words (s " request was handled successfully. But the "); Known "FieldName" (s "Allow") true; Words (s " header does not include "); Datum ["msg"; "request"; "method"]; Words (s ", so it should have been disallowed (status code "); Known "StatusCode" (s "405") true; Words (s ").")]]));
  (1116, ([Known "FieldName" (s "Accept-Encoding") true; Words (s ": "); Datum ["coding"]; Words (s " must not have a quality value")],
    [Para [Cite (RFC 7231 (Some (s "5.3.4")) None None) [Words (s "Most HTTP/1.0 applications do not recognize or obey qvalues" ++ [10%N] ++ s "      associated with content-codings.  This means that qvalues might" ++ [10%N] ++ s "      not work and are not permitted with "); Known "ContentCoding" (s "x-gzip") true; Words (s " or "); Known "ContentCoding" (s "x-compress") true; Words (s ".")]]]));
  (1117, ([Known "FieldName" (s "Accept-Language") false; Words (s " shouldn" ++ [8217%N] ++ s "t trigger a "); Known "StatusCode" (s "406") true; Words (s " response")],
    [Para [Words (s "The "); Known "StatusCode" (s "406") true; Words (s " status code means that the server cannot satisfy the request" ++ [8217%N] ++ s "s content negotiation headers. The only such header (known to HTTPolice) in this request is "); Known "FieldName" (s "Accept-Language") false; Words (s ". However, "); Cite (RFC 7231 (Some (s "5.3.5")) None None) []; Words (s " discourages sending a "); Known "StatusCode" (s "406") true; Words (s " response in this case: it" ++ [8217%N] ++ s "s better to send a representation in a different language, because the user may still be able to understand some of it.")];
     Pointer ["msg"; "request"; "headers"; "accept_language"]]));
  (1118, ([Known "FieldName" (s "Last-Modified") true; Words (s " can" ++ [8217%N] ++ s "t be later than "); Known "FieldName" (s "Date") true],
    [Para [Cite (RFC 7232 (Some (s "2.2.1")) None None) [Words (s "An origin server with a clock MUST NOT send a "); Known "FieldName" (s "Last-Modified") true; Words (s " date that" ++ [10%N] ++ s "   is later than the server's time of message origination ("); Known "FieldName" (s "Date") true; Words (s ").")]]]));
  (1119, ([Words (s "Backslash in "); Datum ["place"]; Words (s " may cause problems")],
    [Para [Cite (RFC 7232 (Some (s "2.3")) None None) [Words (s "Previously, opaque-tag was defined to be a quoted-string" ++ [10%N] ++ s "      ([RFC2616], Section 3.11); thus, some recipients might perform" ++ [10%N] ++ s "      backslash unescaping.  Servers therefore ought to avoid backslash" ++ [10%N] ++ s "      characters in entity tags.")]]]));
  (1120, ([Words (s "Weak entity tag in "); Known "FieldName" (s "If-Match") true; Words (s " is not supposed to work")],
    [Para [Cite (RFC 7232 (Some (s "3.1")) None None) [Words (s "An origin server MUST use the strong comparison function when" ++ [10%N] ++ s "   comparing entity-tags for "); Known "FieldName" (s "If-Match") true; Words (s " (Section 2.3.2), since the client" ++ [10%N] ++ s "   intends this precondition to prevent the method from being applied if" ++ [10%N] ++ s "   there have been any changes to the representation data.")]];
     Para [Words (s "In other words, a conformant server will never consider two weak entity tags as equal for purposes of the "); Known "FieldName" (s "If-Match") true; Words (s " header.")]]));
  (1121, ([Known "FieldName" (s "If-None-Match") false; Words (s " was ignored")],
    [Para [Words (s "This is a "); Datum ["msg"; "status"]; Words (s " response to a "); Datum ["msg"; "request"; "method"]; Words (s " request, but its "); Known "FieldName" (s "ETag") true; Words (s " header matches the "); Known "FieldName" (s "If-None-Match") false; Words (s " header of the request. The server is supposed to send a "); Known "StatusCode" (s "304") true; Words (s " response in this situation.")];
     Para [Words (s "See "); Cite (RFC 7232 (Some (s "3.2")) None None) []; Words (s ".")];
     Pointer ["msg"; "request"; "headers"; "if_none_match"]]));
  (1122, ([Known "FieldName" (s "If-Modified-Since") true; Words (s " in "); Datum ["msg"; "method"]; Words (s " requests is not supposed to work")],
    [Para [Words (s "According to "); Cite (RFC 7232 (Some (s "3.3")) None None) []; Words (s ", an "); Known "FieldName" (s "If-Modified-Since") true; Words (s " header must be ignored in requests that are neither "); Known "Method" (s "GET") true; Words (s " nor "); Known "Method" (s "HEAD") true; Words (s ".")]]));
  (1123, ([Known "FieldName" (s "If-Modified-Since") false; Words (s " was ignored")],
    [Para [Words (s "This is a "); Datum ["msg"; "status"]; Words (s " response to a "); Datum ["msg"; "request"; "method"]; Words (s " request, but its "); Known "FieldName" (s "Last-Modified") true; Words (s " date is no later than the "); Known "FieldName" (s "If-Modified-Since") false; Words (s " header of the request. The server should send a "); Known "StatusCode" (s "304") true; Words (s " response in this situation.")];
     Para [Words (s "See "); Cite (RFC 7232 (Some (s "3.3")) None None) []; Words (s ".")];
     Pointer ["msg"; "request"; "headers"; "if_modified_since"]]));
  (1124, ([Known "StatusCode" (s "304") true; Words (s " response is undefined for "); Datum ["msg"; "request"; "method"]; Words (s " requests")],
    [Para [Words (s "The "); Known "StatusCode" (s "304") true; Words (s " status code is only defined by "); Cite (RFC 7232 (Some (s "4.1")) None None) []; Words (s " for responses to "); Known "Method" (s "GET") true; Words (s " and "); Known "Method" (s "HEAD") true; Words (s ". With other methods, the "); Known "StatusCode" (s "412") true; Words (s " status code may be useful.")]]));
  (1125, ([Datum ["msg"; "status"]; Words (s " response, but request has no preconditions")],
    [Para [Words (s "The "); Datum ["msg"; "status"]; Words (s " status code is only used when the request includes a precondition, such as "); Known "FieldName" (s "If-Modified-Since") false; Words (s ". But this request doesn" ++ [8217%N] ++ s "t seem to have any preconditions.")];
     Para [Words (s "See "); Cite (RFC 7232 None None None) []; Words (s ".")]]));
  (1127, ([Known "StatusCode" (s "304") true; Words (s " response should not have "); Datum ["header"]],
    [Para [Cite (RFC 7232 (Some (s "4.1")) None None) [Words (s "Since the goal of a 304 response is to minimize information transfer" ++ [10%N] ++ s "   when the recipient already has one or more cached representations, a" ++ [10%N] ++ s "   sender SHOULD NOT generate representation metadata other than the" ++ [10%N] ++ s "   above listed fields unless said metadata exists for the purpose of" ++ [10%N] ++ s "   guiding cache updates (e.g., "); Known "FieldName" (s "Last-Modified") false; Words (s " might be useful if the" ++ [10%N] ++ s "   response does not have an "); Known "FieldName" (s "ETag") false; Words (s " field).")]]]));
  (1128, ([Known "FieldName" (s "If-Modified-Since") false; Words (s " on "); Datum ["msg"; "request"; "method"]; Words (s " must be ignored")],
    [Para [Words (s "The "); Known "StatusCode" (s "412") true; Words (s " status code means that the server could not satisfy a precondition included in the request. The only such precondition (known to HTTPolice) in this request is "); Known "FieldName" (s "If-Modified-Since") false; Words (s ". But "); Cite (RFC 7232 (Some (s "3.3")) None None) []; Words (s " says that an "); Known "FieldName" (s "If-Modified-Since") false; Words (s " header in a "); Datum ["msg"; "request"; "method"]; Words (s " request must be ignored.")];
     Pointer ["msg"; "request"; "headers"; "if_modified_since"]]));
  (1129, ([Words (s "Preconditions on "); Datum ["msg"; "request"; "method"]; Words (s " must be ignored")],
    [Para [Words (s "The "); Known "StatusCode" (s "412") true; Words (s " status code means that the server could not satisfy a precondition included in the request. But, as defined in "); Cite (RFC 7232 (Some (s "5")) None None) []; Words (s ", such preconditions must be ignored in a "); Datum ["msg"; "request"; "method"]; Words (s " request.")]]));
  (1130, ([Datum ["header"]; Words (s " on "); Datum ["msg"; "method"]; Words (s " makes no sense")],
    [Para [Cite (RFC 7232 (Some (s "5")) None None) [Words (s "Likewise, a server" ++ [10%N] ++ s "   MUST ignore the conditional request header fields defined by this" ++ [10%N] ++ s "   specification when received with a request method that does not" ++ [10%N] ++ s "   involve the selection or modification of a selected representation," ++ [10%N] ++ s "   such as "); Known "Method" (s "CONNECT") true; Words (s ", "); Known "Method" (s "OPTIONS") true; Words (s ", or "); Known "Method" (s "TRACE") true; Words (s ".")]]]));
  (1131, ([Words (s "Conditional "); Known "Method" (s "HEAD") true; Words (s " request is pointless")],
    [Para [Cite (RFC 7232 (Some (s "5")) None None) [Words (s "Although conditional request header fields are defined as being" ++ [10%N] ++ s "   usable with the "); Known "Method" (s "HEAD") true; Words (s " method (to keep HEAD's semantics consistent with" ++ [10%N] ++ s "   those of "); Known "Method" (s "GET") true; Words (s "), there is no point in sending a conditional HEAD" ++ [10%N] ++ s "   because a successful response is around the same size as a "); Known "StatusCode" (s "304") true; Words (s " (Not" ++ [10%N] ++ s "   Modified) response and more useful than a "); Known "StatusCode" (s "412") true; Words (s " (Precondition Failed)" ++ [10%N] ++ s "   response.")]];
     Pointer ["header"]]));
  (1132, ([Known "FieldName" (s "Range") true; Words (s " header on "); Datum ["msg"; "method"]; Words (s " is not supposed to work")],
    [Para [Cite (RFC 7233 (Some (s "3.1")) None None) [Words (s "A server" ++ [10%N] ++ s "   MUST ignore a "); Known "FieldName" (s "Range") true; Words (s " header field received with a request method other" ++ [10%N] ++ s "   than "); Known "Method" (s "GET") true; Words (s ".")]]]));
  (1133, ([Words (s "Invalid byte range in "); Datum ["place"]],
    [Para [Cite (RFC 7233 (Some (s "2.1")) None None) [Words (s "A byte-range-spec is invalid if the last-byte-pos value is present" ++ [10%N] ++ s "   and less than the first-byte-pos.")]]]));
  (1134, ([Known "FieldName" (s "If-Range") true; Words (s " requires a "); Known "FieldName" (s "Range") true; Words (s " header")],
    [Para [Cite (RFC 7233 (Some (s "3.2")) None None) [Words (s "A client MUST NOT generate an "); Known "FieldName" (s "If-Range") true; Words (s " header field in a request that" ++ [10%N] ++ s "   does not contain a "); Known "FieldName" (s "Range") true; Words (s " header field.")]]]));
  (1135, ([Words (s "Weak entity tags are forbidden in "); Known "FieldName" (s "If-Range") true],
    [Para [Cite (RFC 7233 (Some (s "3.2")) None None) [Words (s "A client MUST NOT generate an "); Known "FieldName" (s "If-Range") true; Words (s " header field containing an" ++ [10%N] ++ s "   entity-tag that is marked as weak.")]]]));
  (1136, ([Known "StatusCode" (s "206") true; Words (s " response, but request had no "); Known "FieldName" (s "Range") false],
    [Para [Words (s "The "); Known "StatusCode" (s "206") true; Words (s " status code only makes sense in responses to partial requests" ++ [8212%N] ++ s "that is, requests with a "); Known "FieldName" (s "Range") false; Words (s " header. See "); Cite (RFC 7233 (Some (s "4.1")) None None) []; Words (s ".")]]));
  (1137, ([Known "StatusCode" (s "206") true; Words (s " response to "); Datum ["msg"; "request"; "method"]; Words (s " is forbidden")],
    [Para [Cite (RFC 7233 (Some (s "3.1")) None None) [Words (s "A server" ++ [10%N] ++ s "   MUST ignore a "); Known "FieldName" (s "Range") false; Words (s " header field received with a request method other" ++ [10%N] ++ s "   than "); Known "Method" (s "GET") true; Words (s ".")]];
     Pointer ["msg"; "request"; "headers"; "range"]]));
  (1138, ([Known "StatusCode" (s "206") true; Words (s " response needs range specifiers")],
    [Para [Words (s "The "); Known "StatusCode" (s "206") true; Words (s " status code means that the response contains one or more parts of the data. When it contains one part, the response must have a "); Known "FieldName" (s "Content-Range") true; Words (s " header. When it contains several parts, the response must have a "); Known "FieldName" (s "Content-Type") true; Words (s " of "); Known "MediaType" (s "multipart/byteranges") true; Words (s ". But this response has neither.")];
     Para [Words (s "See "); Cite (RFC 7233 (Some (s "4.1")) None None) []; Words (s ".")]]));
  (1139, ([Words (s "Multipart boundary not declared")],
    [Para [Words (s "According to "); Known "FieldName" (s "Content-Type") true; Words (s ", this message has a multipart body, but Content-Type does not include the " ++ [8216%N] ++ s "boundary" ++ [8217%N] ++ s " parameter that is necessary to parse such a body.")];
     Para [Words (s "See "); Cite (RFC 2046 (Some (s "5.1.1")) None None) []; Words (s ".")]]));
  (1140, ([Words (s "Multipart boundary not found")],
    [Para [Words (s "The multipart boundary declared in this message" ++ [8217%N] ++ s "s "); Known "FieldName" (s "Content-Type") true; Words (s " was not found in the body.")];
     Para [Words (s "See "); Cite (RFC 2046 (Some (s "5.1.1")) None None) []; Words (s ".")];
     Pointer ["msg"; "displayable_body"]]));
  (1141, ([Words (s "No "); Known "FieldName" (s "Content-Range") false; Words (s " in part #"); Datum ["part_num"]],
    [Para [Cite (RFC 7233 (Some (s "4.1")) None None) [Words (s "Within the header area of each body part in the multipart payload," ++ [10%N] ++ s "   the server MUST generate a "); Known "FieldName" (s "Content-Range") false; Words (s " header field corresponding" ++ [10%N] ++ s "   to the range being enclosed in that body part.")]];
     Pointer ["msg"; "displayable_body"];
     Pointer ["msg"; "headers"; "content_type"]]));
  (1142, ([Words (s "No "); Known "FieldName" (s "Content-Type") false; Words (s " in part #"); Datum ["part_num"]],
    [Para [Cite (RFC 7233 (Some (s "4.1")) None None) [Words (s "If the selected" ++ [10%N] ++ s "   representation would have had a "); Known "FieldName" (s "Content-Type") false; Words (s " header field in a "); Known "StatusCode" (s "200") true; Words ([10%N] ++ s "   (OK) response, the server SHOULD generate that same Content-Type" ++ [10%N] ++ s "   field in the header area of each body part.")]];
     Pointer ["msg"; "displayable_body"];
     Pointer ["msg"; "headers"; "content_type"]]));
  (1143, ([Known "FieldName" (s "Content-Range") true; Words (s " in a "); Known "MediaType" (s "multipart/byteranges") true; Words (s " response is forbidden")],
    [Para [Cite (RFC 7233 (Some (s "4.1")) None None) [Words (s "To avoid confusion with single-part responses, a server MUST NOT" ++ [10%N] ++ s "   generate a "); Known "FieldName" (s "Content-Range") true; Words (s " header field in the HTTP header section of a" ++ [10%N] ++ s "   multiple part response (this field will be sent in each part" ++ [10%N] ++ s "   instead).")]];
     Pointer ["msg"; "headers"; "content_type"]]));
  (1144, ([Known "MediaType" (s "multipart/byteranges") true; Words (s " response can" ++ [8217%N] ++ s "t be used for a single "); Known "FieldName" (s "Range") false],
    [Para [Cite (RFC 7233 (Some (s "4.1")) None None) [Words (s "A server MUST NOT generate a multipart response to a request for a" ++ [10%N] ++ s "   single range, since a client that does not request multiple parts" ++ [10%N] ++ s "   might not support multipart responses.")]];
     Pointer ["msg"; "request"; "headers"; "range"];
     Pointer ["msg"; "headers"; "content_type"]]));
  (1145, ([Known "StatusCode" (s "206") true; Words (s " response, but "); Known "FieldName" (s "ETag") true; Words (s " doesn" ++ [8217%N] ++ s "t match "); Known "FieldName" (s "If-Range") false],
    [Para [Words (s "The request" ++ [8217%N] ++ s "s "); Known "FieldName" (s "If-Range") false; Words (s " header means that the server is expected to send a "); Known "StatusCode" (s "206") true; Words (s " response only if the representation" ++ [8217%N] ++ s "s "); Known "FieldName" (s "ETag") true; Words (s " matches the one specified in If-Range. In this case, it doesn" ++ [8217%N] ++ s "t match, so the server is supposed to send a "); Known "StatusCode" (s "200") true; Words (s " response with the complete data.")];
     Para [Words (s "See "); Cite (RFC 7233 (Some (s "3.2")) None None) []; Words (s ".")];
     Pointer ["msg"; "request"; "headers"; "if_range"]]));
  (1146, ([Words (s "Unnecessary "); Datum ["header"]; Words (s " header")],
    [Para [Cite (RFC 7233 (Some (s "4.1")) None None) [Words (s "If a "); Known "StatusCode" (s "206") false; Words (s " is generated in response to a request with an "); Known "FieldName" (s "If-Range") false; Words ([10%N] ++ s "   header field, the sender SHOULD NOT generate other representation" ++ [10%N] ++ s "   header fields beyond those required above, because the client is" ++ [10%N] ++ s "   understood to already have a prior response containing those header" ++ [10%N] ++ s "   fields.")]];
     Pointer ["msg"; "request"; "headers"; "if_range"]]));
  (1147, ([Known "FieldName" (s "Content-Range") true; Words (s " is undefined for "); Datum ["msg"; "status"]; Words (s " responses")],
    [Para [Words (s "The "); Known "FieldName" (s "Content-Range") true; Words (s " header is defined by "); Cite (RFC 7233 (Some (s "4.2")) None None) []; Words (s " for responses with status codes "); Known "StatusCode" (s "206") true; Words (s " and "); Known "StatusCode" (s "416") true; Words (s ", but not "); Datum ["msg"; "status"]; Words (s ".")]]));
  (1148, ([Words (s "Invalid byte range in "); Datum ["place"]],
    [Para [Cite (RFC 7233 (Some (s "4.2")) None None) [Words (s "A "); Known "FieldName" (s "Content-Range") false; Words (s " field value is invalid if it contains a" ++ [10%N] ++ s "   byte-range-resp that has a last-byte-pos value less than its" ++ [10%N] ++ s "   first-byte-pos value, or a complete-length value less than or equal" ++ [10%N] ++ s "   to its last-byte-pos value.")]]]));
  (1149, ([Known "StatusCode" (s "416") true; Words (s " response to request without "); Known "FieldName" (s "Range") false; Words (s " makes no sense")],
    [Para [Words (s "The "); Known "StatusCode" (s "416") true; Words (s " status code is defined by "); Cite (RFC 7233 (Some (s "4.4")) None None) []; Words (s " only for responses to requests that have a "); Known "FieldName" (s "Range") false; Words (s " header.")]]));
  (1150, ([Known "StatusCode" (s "416") true; Words (s " response should have "); Known "FieldName" (s "Content-Range") true],
    [Para [Cite (RFC 7233 (Some (s "4.4")) None None) [Words (s "When this status" ++ [10%N] ++ s "   code is generated in response to a byte-range request, the sender" ++ [10%N] ++ s "   SHOULD generate a "); Known "FieldName" (s "Content-Range") true; Words (s " header field specifying the current" ++ [10%N] ++ s "   length of the selected representation")]];
     Pointer ["msg"; "request"; "headers"; "range"]]));
  (1151, ([Words (s "Empty list elements in "); Datum ["place"]; Words (s " are forbidden")],
    [Para [Cite (RFC 7230 (Some (s "7")) None None) [Words (s "In any production that uses the list construct, a sender MUST NOT" ++ [10%N] ++ s "   generate empty list elements.")]]]));
  (1152, ([Known "FieldName" (s "Cache-Control") true; Words (s ": "); Datum ["directive"]; Words (s " is for responses")],
    [Para [Words (s "This request" ++ [8217%N] ++ s "s "); Known "FieldName" (s "Cache-Control") true; Words (s " header includes the "); Datum ["directive"]; Words (s " directive, which is only defined for responses.")]]));
  (1153, ([Known "FieldName" (s "Cache-Control") true; Words (s ": "); Datum ["directive"]; Words (s " is for requests")],
    [Para [Words (s "This response" ++ [8217%N] ++ s "s "); Known "FieldName" (s "Cache-Control") true; Words (s " header includes the "); Datum ["directive"]; Words (s " directive, which is only defined for requests.")]]));
  (1154, ([Known "FieldName" (s "Cache-Control") true; Words (s ": "); Datum ["directive"]; Words (s " should be quoted")],
    [Para [Words (s "The specification for the "); Datum ["directive"]; Words (s " directive recommends wrapping its argument in double quotes. But in this message" ++ [8217%N] ++ s "s "); Known "FieldName" (s "Cache-Control") false; Words (s " header, it is not quoted.")]]));
  (1155, ([Known "FieldName" (s "Cache-Control") true; Words (s ": "); Datum ["directive"]; Words (s " should not be quoted")],
    [Para [Words (s "In this message" ++ [8217%N] ++ s "s "); Known "FieldName" (s "Cache-Control") false; Words (s " header, the argument to the "); Datum ["directive"]; Words (s " directive is wrapped in double quotes. But the specification recommends writing it as a plain token, without quotes.")]]));
  (1156, ([Datum ["entry"]; Words (s ": "); Datum ["name"]; Words (s " needs an argument")],
    [Para [Words (s "According to the specification, " ++ [8216%N]); Datum ["name"]; Words ([8217%N] ++ s " in "); Datum ["entry"]; Words (s " must have an argument. But in this message, it doesn" ++ [8217%N] ++ s "t.")]]));
  (1157, ([Datum ["entry"]; Words (s ": "); Datum ["name"]; Words (s " can" ++ [8217%N] ++ s "t have an argument")],
    [Para [Words (s "In this message" ++ [8217%N] ++ s "s "); Datum ["entry"]; Words (s " header, " ++ [8216%N]); Datum ["name"]; Words ([8217%N] ++ s " has an argument. But the specification defines no argument for " ++ [8216%N]); Datum ["name"]; Words ([8217%N] ++ s ".")]]));
  (1158, ([Words (s "Syntax error in "); Datum ["place"]; Words (s ": "); Datum ["name"]],
    [Para [Words ([8220%N]); Datum ["value"]; Words ([8221%N] ++ s " is not a correct value for " ++ [8216%N]); Datum ["name"]; Words ([8217%N] ++ s " in "); Datum ["place"]; Words (s ".")];
     Exception_]));
  (1159, ([Known "FieldName" (s "Cache-Control") true; Words (s ": "); Known "CacheDirective" (s "no-cache") true; Words (s " can" ++ [8217%N] ++ s "t have an argument")],
    [Para [Words (s "In this request" ++ [8217%N] ++ s "s "); Known "FieldName" (s "Cache-Control") true; Words (s " header, the "); Known "CacheDirective" (s "no-cache") true; Words (s " directive has an argument. But the specification for "); Known "CacheDirective" (s "no-cache") true; Words (s " only defines an argument when used in responses.")]]));
  (1160, ([Known "FieldName" (s "Pragma") true; Words (s " other than " ++ [8216%N] ++ s "no-cache" ++ [8217%N] ++ s " is deprecated")],
    [Para [Words (s "This message" ++ [8217%N] ++ s "s "); Known "FieldName" (s "Pragma") true; Words (s " header includes " ++ [8216%N]); Datum ["pragma"]; Words ([8217%N] ++ s ", but all pragmas other than " ++ [8216%N] ++ s "no-cache" ++ [8217%N] ++ s " are deprecated in "); Cite (RFC 7234 (Some (s "5.4")) None None) []; Words (s ".")]]));
  (1161, ([Words ([8220%N]); Known "FieldName" (s "Cache-Control") true; Words (s ":" ++ [160%N] ++ s "no-cache" ++ [8221%N] ++ s " should also have " ++ [8220%N]); Known "FieldName" (s "Pragma") true; Words (s ":" ++ [160%N] ++ s "no-cache" ++ [8221%N])],
    [Para [Cite (RFC 7234 (Some (s "5.4")) None None) [Words (s "When sending a no-cache request, a client ought to include both the" ++ [10%N] ++ s "   pragma and cache-control directives, unless "); Known "FieldName" (s "Cache-Control") true; Words (s ": "); Known "CacheDirective" (s "no-cache") true; Words ([10%N] ++ s "   is purposefully omitted to target other Cache-Control response" ++ [10%N] ++ s "   directives at HTTP/1.1 caches.")]]]));
  (1162, ([Known "FieldName" (s "Pragma") true; Words (s ": no-cache is for requests")],
    [Para [Words (s "This response contains the " ++ [8216%N] ++ s "no-cache" ++ [8217%N] ++ s " pragma directive, which is defined by "); Cite (RFC 7234 (Some (s "5.4")) None None) []; Words (s " only for requests.")]]));
  (1163, ([Words (s "Warn code "); Datum ["code"]; Words (s " not in range 100" ++ [8212%N] ++ s "299")],
    [Para [Cite (RFC 7234 (Some (s "5.5")) None None) []; Words (s " defines two classes of warn codes: 1xx and 2xx. But this message" ++ [8217%N] ++ s "s "); Known "FieldName" (s "Warning") true; Words (s " header contains a "); Datum ["code"]; Words (s " code.")]]));
  (1164, ([Known "FieldName" (s "Warning") true; Words (s " date must match the "); Known "FieldName" (s "Date") true; Words (s " header")],
    [Para [Words (s "This message" ++ [8217%N] ++ s "s "); Known "FieldName" (s "Warning") true; Words (s " header contains a warning (code "); Datum ["code"]; Words (s ") with a date that does not match the "); Known "FieldName" (s "Date") true; Words (s " header. This means that the warning was mistakenly kept after cache validation. As explained in "); Cite (RFC 7234 (Some (s "5.5")) None None) []; Words (s ", such warnings must be removed.")]]));
  (1165, ([Words ([8220%N]); Known "FieldName" (s "Warning") true; Words (s ": "); Datum ["code"]; Words ([8221%N] ++ s " is for responses")],
    [Para [Words (s "This request" ++ [8217%N] ++ s "s "); Known "FieldName" (s "Warning") true; Words (s " header contains the "); Datum ["code"]; Words (s " warn code. But, according to "); Cite (RFC 7234 (Some (s "5.5")) None None) []; Words (s ", 1xx warn codes can only be used on responses.")]]));
  (1166, ([Words (s "Response from cache needs an "); Known "FieldName" (s "Age") true; Words (s " header")],
    [Para [Words (s "According to "); Cite (RFC 7234 (Some (s "4")) None None) []; Words (s ", a cache must add an "); Known "FieldName" (s "Age") true; Words (s " header to every response that is served without contacting the origin server.")]]));
  (1167, ([Words (s "Status code "); Datum ["msg"; "status"]; Words (s " not in range 100" ++ [8212%N] ++ s "599")],
    [Para [Words (s "According to "); Cite (RFC 7231 (Some (s "6")) None None) []; Words (s ", HTTP status codes can only range from 100 to 599.")]]));
  (1168, ([Known "FieldName" (s "Age") true; Words (s " header implies response from cache")],
    [Para [Cite (RFC 7234 (Some (s "5.1")) None None) [Words (s "The presence of an "); Known "FieldName" (s "Age") true; Words (s " header field implies that the response was not" ++ [10%N] ++ s "   generated or validated by the origin server for this request.")]]]));
  (1169, ([Words ([8220%N]); Known "FieldName" (s "Warning") true; Words (s ": "); Datum ["code"]; Words ([8221%N] ++ s " implies response from cache")],
    [Para [Words (s "This response" ++ [8217%N] ++ s "s "); Known "FieldName" (s "Warning") true; Words (s " header contains the "); Datum ["code"]; Words (s " warn code, which implies that it was served from a cache, without contacting the origin server. See "); Cite (RFC 7234 (Some (s "5.5")) None None) []; Words (s ".")]]));
  (1170, ([Words (s "Response from cache older than "); Known "CacheDirective" (s "max-age") true],
    [Para [Words (s "This response" ++ [8217%N] ++ s "s "); Known "FieldName" (s "Age") true; Words (s " of "); Datum ["msg"; "headers"; "age"; "value"]; Words (s " is greater than the "); Known "CacheDirective" (s "max-age") true; Words (s " of "); Datum ["msg"; "request"; "headers"; "cache_control"; "max_age"]; Words (s " requested by the client" ++ [8217%N] ++ s "s "); Known "FieldName" (s "Cache-Control") false; Words (s " header.")];
     Pointer ["msg"; "request"; "headers"; "cache_control"]]));
  (1171, ([Known "FieldName" (s "Cache-Control") true; Words (s ": "); Datum ["directive"]; Words (s " has no effect on "); Datum ["msg"; "method"]],
    [Para [Words (s "The "); Datum ["msg"; "method"]; Words (s " method is defined as non-cacheable, so the "); Datum ["directive"]; Words (s " directive in this request" ++ [8217%N] ++ s "s "); Known "FieldName" (s "Cache-Control") true; Words (s " header makes no difference.")]]));
  (1172, ([Words (s "Response to "); Datum ["msg"; "request"; "method"]; Words (s " can" ++ [8217%N] ++ s "t be served from cache")],
    [Para [Words (s "The "); Datum ["msg"; "request"; "method"]; Words (s " method is defined as non-cacheable.")]]));
  (1173, ([Words (s "Response to " ++ [8220%N]); Known "FieldName" (s "Cache-Control") false; Words (s ": "); Known "CacheDirective" (s "no-cache") true; Words ([8221%N] ++ s " can" ++ [8217%N] ++ s "t be served from cache")],
    [Para [Cite (RFC 7234 (Some (s "5.2.1.4")) None None) [Words (s "The ""no-cache"" request directive indicates that a cache MUST NOT use" ++ [10%N] ++ s "   a stored response to satisfy the request without successful" ++ [10%N] ++ s "   validation on the origin server.")]];
     Pointer ["msg"; "request"; "headers"; "cache_control"]]));
  (1174, ([Words (s "Response to " ++ [8220%N]); Known "FieldName" (s "Pragma") false; Words (s ": no-cache" ++ [8221%N] ++ s " can" ++ [8217%N] ++ s "t be served from cache")],
    [Para [Cite (RFC 7234 (Some (s "5.4")) None None) [Words (s "When the "); Known "FieldName" (s "Cache-Control") false; Words (s " header field is not present in a request," ++ [10%N] ++ s "   caches MUST consider the no-cache request pragma-directive as having" ++ [10%N] ++ s "   the same effect as if ""Cache-Control: "); Known "CacheDirective" (s "no-cache") true; Words (s """ were present")]];
     Pointer ["msg"; "request"; "headers"; "pragma"]]));
  (1175, ([Words (s "Response with " ++ [8220%N]); Known "FieldName" (s "Cache-Control") true; Words (s ": "); Known "CacheDirective" (s "no-cache") true; Words ([8221%N] ++ s " can" ++ [8217%N] ++ s "t be served from cache")],
    [Para [Cite (RFC 7234 (Some (s "5.2.2.2")) None None) [Words (s "The ""no-cache"" response directive indicates that the response MUST" ++ [10%N] ++ s "   NOT be used to satisfy a subsequent request without successful" ++ [10%N] ++ s "   validation on the origin server.")]]]));
  (1176, ([Words (s "Response with " ++ [8220%N]); Known "FieldName" (s "Cache-Control") true; Words (s ": "); Known "CacheDirective" (s "no-store") true; Words ([8221%N] ++ s " can" ++ [8217%N] ++ s "t be served from cache")],
    [Para [Words (s "According to "); Cite (RFC 7234 (Some (s "3")) None None) []; Words (s ", a cache cannot store a response that includes the "); Known "CacheDirective" (s "no-store") true; Words (s " directive in its "); Known "FieldName" (s "Cache-Control") true; Words (s " header.")]]));
  (1177, ([Datum ["msg"; "status"]; Words (s " response can" ++ [8217%N] ++ s "t be served from cache by default")],
    [Para [Words (s "The "); Datum ["msg"; "status"]; Words (s " status code is not defined as cacheable by default. According to "); Cite (RFC 7234 (Some (s "3")) None None) []; Words (s ", such a response can only be cached if it explicitly allows caching, with headers such as "); Known "FieldName" (s "Expires") true; Words (s ". But this response has no such headers, so it is not cacheable.")]]));
  (1178, ([Words (s "Heuristic freshness")],
    [Para [Words (s "Because this response has no explicit freshness controls (such as "); Known "FieldName" (s "Expires") true; Words (s " or "); Known "CacheDirective" (s "max-age") true; Words (s "), HTTPolice will assume that its expiration time was chosen heuristically by the cache. See "); Cite (RFC 7234 (Some (s "4.2.2")) None None) []; Words (s ".")]]));
  (1179, ([Words ([8220%N]); Known "FieldName" (s "Warning") true; Words (s ": "); Known "WarnCode" (s "113") true; Words ([8221%N] ++ s " implies heuristic freshness")],
    [Para [Words (s "The "); Known "WarnCode" (s "113") true; Words (s " warn code in this response" ++ [8217%N] ++ s "s "); Known "FieldName" (s "Warning") true; Words (s " header means that the expiration time for this response was chosen heuristically by the cache.")]]));
  (1180, ([Words (s "Heuristic freshness should have " ++ [8220%N]); Known "FieldName" (s "Warning") true; Words (s ": "); Known "WarnCode" (s "113") true; Words ([8221%N])],
    [Para [Cite (RFC 7234 (Some (s "4.2.2")) None None) [Words (s "When a heuristic is used to calculate freshness lifetime, a cache" ++ [10%N] ++ s "   SHOULD generate a "); Known "FieldName" (s "Warning") true; Words (s " header field with a "); Known "WarnCode" (s "113") true; Words (s " warn-code (see" ++ [10%N] ++ s "   Section 5.5.4) in the response if its current_age is more than 24" ++ [10%N] ++ s "   hours and such a warning is not already present.")]];
     Pointer ["msg"; "headers"; "age"]]));
  (1181, ([Words (s "Heuristic freshness can" ++ [8217%N] ++ s "t be used when "); Known "FieldName" (s "Expires") true; Words (s " is present")],
    [Para [Cite (RFC 7234 (Some (s "4.2.2")) None None) [Words (s "A cache MUST NOT use heuristics to determine freshness when an" ++ [10%N] ++ s "   explicit expiration time is present in the stored response.")]]]));
  (1182, ([Words (s "Heuristic freshness can" ++ [8217%N] ++ s "t be used when "); Known "CacheDirective" (s "max-age") true; Words (s " is present")],
    [Para [Cite (RFC 7234 (Some (s "4.2.2")) None None) [Words (s "A cache MUST NOT use heuristics to determine freshness when an" ++ [10%N] ++ s "   explicit expiration time is present in the stored response.")]];
     Pointer ["msg"; "headers"; "cache_control"]]));
  (1183, ([Words ([8220%N]); Known "FieldName" (s "Warning") true; Words (s ": "); Datum ["code"]; Words ([8221%N] ++ s " implies response is stale")],
    [Para [Words (s "The "); Datum ["code"]; Words (s " warn code in this response" ++ [8217%N] ++ s "s "); Known "FieldName" (s "Warning") true; Words (s " header means that the response is stale, as defined by "); Cite (RFC 7234 (Some (s "4.2")) None None) []; Words (s ".")]]));
  (1184, ([Words (s "Response is stale because "); Known "FieldName" (s "Age") true; Words ([160%N] ++ s ">" ++ [160%N]); Known "CacheDirective" (s "max-age") true],
    [Para [Words (s "This response" ++ [8217%N] ++ s "s "); Known "FieldName" (s "Age") true; Words (s " is greater than the "); Known "CacheDirective" (s "max-age") true; Words (s " specified in its "); Known "FieldName" (s "Cache-Control") true; Words (s " header. This means that the response is stale, as defined by "); Cite (RFC 7234 (Some (s "4.2")) None None) []; Words (s ".")]]));
  (1185, ([Words (s "Response is stale because "); Known "FieldName" (s "Age") true; Words ([160%N] ++ s ">" ++ [160%N]); Known "FieldName" (s "Expires") true; Words ([160%N] ++ [8722%N] ++ [160%N]); Known "FieldName" (s "Date") true],
    [Para [Words (s "This response" ++ [8217%N] ++ s "s "); Known "FieldName" (s "Age") true; Words (s " is greater than the difference between its "); Known "FieldName" (s "Expires") true; Words (s " date and its "); Known "FieldName" (s "Date") true; Words (s " header. This means that the response is stale, as defined by "); Cite (RFC 7234 (Some (s "4.2")) None None) []; Words (s ".")]]));
  (1186, ([Words (s "Stale response should have " ++ [8220%N]); Known "FieldName" (s "Warning") false; Words (s ": "); Known "WarnCode" (s "110") true; Words ([8221%N])],
    [Para [Cite (RFC 7234 (Some (s "4.2.4")) None None) [Words (s "A cache SHOULD generate a Warning header field with the "); Known "WarnCode" (s "110") true; Words (s " warn-code" ++ [10%N] ++ s "   (see Section 5.5.1) in stale responses.")]]]));
  (1187, ([Words (s "Response with " ++ [8220%N]); Known "FieldName" (s "Cache-Control") true; Words (s ": "); Known "CacheDirective" (s "must-revalidate") true; Words ([8221%N] ++ s " can" ++ [8217%N] ++ s "t be served stale")],
    [Para [Cite (RFC 7234 (Some (s "5.2.2.1")) None None) [Words (s "The ""must-revalidate"" response directive indicates that once it has" ++ [10%N] ++ s "   become stale, a cache MUST NOT use the response to satisfy subsequent" ++ [10%N] ++ s "   requests without successful validation on the origin server.")]]]));
  (1188, ([Words (s "Possibly wrong stale response")],
    [Para [Cite (RFC 7234 (Some (s "4.2.4")) None None) [Words (s "A cache MUST NOT send stale responses unless it is disconnected" ++ [10%N] ++ s "   (i.e., it cannot contact the origin server or otherwise find a" ++ [10%N] ++ s "   forward path) or doing so is explicitly allowed (e.g., by the" ++ [10%N] ++ s "   "); Known "CacheDirective" (s "max-stale") true; Words (s " request directive; see Section 5.2.1).")]];
     Para [Words (s "If the cache is disconnected, it should have added a "); Known "FieldName" (s "Warning") false; Words (s " header with a "); Known "WarnCode" (s "112") true; Words (s " or "); Known "WarnCode" (s "111") true; Words (s " warn code to indicate that.")]]));
  (1189, ([Words ([8220%N]); Known "FieldName" (s "Warning") true; Words (s ": "); Known "WarnCode" (s "214") true; Words ([8221%N] ++ s " means transformed by proxy")],
    [Para [Words (s "The "); Known "WarnCode" (s "214") true; Words (s " warn code in this message" ++ [8217%N] ++ s "s "); Known "FieldName" (s "Warning") true; Words (s " header means that it was transformed by a proxy.")];
     Para [Words (s "See also "); Cite (RFC 7230 (Some (s "5.7.2")) None None) []; Words (s ".")]]));
  (1190, ([Words (s "Status "); Known "StatusCode" (s "203") true; Words (s " means transformed by proxy")],
    [Para [Words (s "The "); Known "StatusCode" (s "203") true; Words (s " status code means that this response was transformed by a proxy.")];
     Para [Words (s "See also "); Cite (RFC 7230 (Some (s "5.7.2")) None None) []; Words (s ".")]]));
  (1191, ([Words (s "Transformed message needs " ++ [8220%N]); Known "FieldName" (s "Warning") false; Words (s ": "); Known "WarnCode" (s "214") true; Words ([8221%N])],
    [Para [Cite (RFC 7230 (Some (s "5.7.2")) None None) [Words (s "A proxy that transforms a" ++ [10%N] ++ s "   payload MUST add a Warning header field with the warn-code of "); Known "WarnCode" (s "214") true; Words ([10%N] ++ s "   (""Transformation Applied"") if one is not already in the message (see" ++ [10%N] ++ s "   Section 5.5 of [RFC7234]).")]]]));
  (1192, ([Words (s "Transformation forbidden by " ++ [8220%N]); Known "FieldName" (s "Cache-Control") true; Words (s ": "); Known "CacheDirective" (s "no-transform") true; Words ([8221%N])],
    [Para [Cite (RFC 7230 (Some (s "5.7.2")) None None) [Words (s "A proxy MUST NOT transform the payload (Section 3.3 of [RFC7231]) of" ++ [10%N] ++ s "   a message that contains a "); Known "CacheDirective" (s "no-transform") true; Words (s " cache-control directive" ++ [10%N] ++ s "   (Section 5.2 of [RFC7234]).")]]]));
  (1193, ([Known "FieldName" (s "Cache-Control") true; Words (s ": "); Datum ["directive1"]; Words (s " contradicts "); Datum ["directive2"]],
    [Para [Words (s "This message" ++ [8217%N] ++ s "s "); Known "FieldName" (s "Cache-Control") true; Words (s " header includes both the "); Datum ["directive1"]; Words (s " and the "); Datum ["directive2"]; Words (s " directives, which contradict each other.")]]));
  (1194, ([Known "StatusCode" (s "401") true; Words (s " response needs a "); Known "FieldName" (s "WWW-Authenticate") true; Words (s " header")],
    [Para [Cite (RFC 7235 (Some (s "3.1")) None None) [Words (s "The server generating a 401 response MUST send" ++ [10%N] ++ s "   a "); Known "FieldName" (s "WWW-Authenticate") true; Words (s " header field (Section 4.1) containing at least one" ++ [10%N] ++ s "   challenge applicable to the target resource.")]]]));
  (1195, ([Known "StatusCode" (s "407") true; Words (s " response needs a "); Known "FieldName" (s "Proxy-Authenticate") true; Words (s " header")],
    [Para [Cite (RFC 7235 (Some (s "3.2")) None None) [Words (s "The proxy MUST send a" ++ [10%N] ++ s "   "); Known "FieldName" (s "Proxy-Authenticate") true; Words (s " header field (Section 4.3) containing a challenge" ++ [10%N] ++ s "   applicable to that proxy for the target resource.")]]]));
  (1196, ([Words ([8216%N] ++ s "realm" ++ [8217%N] ++ s " parameter in "); Datum ["place"]; Words (s " must be quoted")],
    [Para [Words (s "According to "); Cite (RFC 7235 (Some (s "2.2")) None None) []; Words (s ", the value of the " ++ [8216%N] ++ s "realm" ++ [8217%N] ++ s " parameter must be enclosed in double quotes.")]]));
  (1197, ([Words (s "Deprecated header "); Datum ["header"]],
    [Para [Words (s "This message has the "); Datum ["header"]; Words (s " header, which is listed as " ++ [8220%N] ++ s "obsoleted" ++ [8221%N] ++ s " or " ++ [8220%N] ++ s "deprecated" ++ [8221%N] ++ s " in the "); Cite (Document (Some (s "IANA message headers registry")) (s "https://www.iana.org/assignments/message-headers/message-headers.xhtml")) []; Words (s ".")]]));
  (1198, ([Words ([8220%N]); Known "FieldName" (s "Connection") true; Words (s ":" ++ [160%N] ++ s "close" ++ [8221%N] ++ s " makes no sense in "); Datum ["msg"; "status"]; Words (s " response")],
    [Para [Words (s "The "); Datum ["msg"; "status"]; Words (s " status code means that this is an interim response, and more responses will follow on the same connection. But the " ++ [8216%N] ++ s "close" ++ [8217%N] ++ s " option in this response" ++ [8217%N] ++ s "s "); Known "FieldName" (s "Connection") true; Words (s " header means that the server will close the connection after sending this response.")]]));
  (1199, ([Words ([8220%N]); Known "FieldName" (s "Connection") true; Words (s ": close" ++ [8221%N] ++ s " makes no sense in "); Datum ["msg"; "status"]; Words (s " response to "); Known "Method" (s "CONNECT") true],
    [Para [Words (s "A "); Datum ["msg"; "status"]; Words (s " response to a "); Known "Method" (s "CONNECT") true; Words (s " request means that this connection is becoming a tunnel. But the " ++ [8216%N] ++ s "close" ++ [8217%N] ++ s " option in this response" ++ [8217%N] ++ s "s "); Known "FieldName" (s "Connection") true; Words (s " header means that the server will close the connection after sending this response.")]]));
  (1200, ([Known "StatusCode" (s "428") true; Words (s " response, but request has a "); Datum ["header"]; Words (s " precondition")],
    [Para [Words (s "The "); Known "StatusCode" (s "428") true; Words (s " status code means that the server refuses to handle an unconditional request. But this request is conditional, because it has the "); Datum ["header"]; Words (s " header.")]]));
  (1201, ([Known "StatusCode" (s "428") true; Words (s " response should include an explanation")],
    [Para [Cite (RFC 6585 (Some (s "3")) None None) [Words (s "Responses using this status code SHOULD explain how to resubmit the" ++ [10%N] ++ s "   request successfully.")]]]));
  (1202, ([Datum ["msg"; "status"]; Words (s " response can" ++ [8217%N] ++ s "t be served from cache")],
    [Para [Words (s "According to the specification, the "); Datum ["msg"; "status"]; Words (s " status code cannot be served from a cache.")]]));
  (1203, ([Known "StatusCode" (s "429") true; Words (s " response should include an explanation")],
    [Para [Cite (RFC 6585 (Some (s "4")) None None) [Words (s "The response representations SHOULD include details explaining the" ++ [10%N] ++ s "   condition, and MAY include a "); Known "FieldName" (s "Retry-After") false; Words (s " header indicating how long" ++ [10%N] ++ s "   to wait before making a new request.")]]]));
  (1204, ([Known "StatusCode" (s "511") true; Words (s " response should have a body")],
    [Para [Cite (RFC 6585 (Some (s "6")) None None) [Words (s "The response representation SHOULD contain a link to a resource that" ++ [10%N] ++ s "   allows the user to submit credentials (e.g., with an HTML form).")]]]));
  (1205, ([Known "StatusCode" (s "308") true; Words (s " response should have a "); Known "FieldName" (s "Location") true; Words (s " header")],
    [Para [Cite (RFC 7538 (Some (s "3")) None None) [Words (s "The server SHOULD generate a "); Known "FieldName" (s "Location") true; Words (s " header field ([RFC7231]," ++ [10%N] ++ s "   Section 7.1.2) in the response containing a preferred URI reference" ++ [10%N] ++ s "   for the new permanent URI.")]]]));
  (1206, ([Datum ["header"]; Words (s ": "); Known "AuthScheme" (s "Basic") true; Words (s " must have " ++ [8216%N] ++ s "realm" ++ [8217%N])],
    [Para [Words (s "The Basic authentication scheme requires a " ++ [8216%N] ++ s "realm" ++ [8217%N] ++ s " parameter. See "); Cite (RFC 7617 (Some (s "2")) None None) []; Words (s ".")]]));
  (1207, ([Datum ["header"]; Words (s ": "); Known "AuthScheme" (s "Basic") true; Words (s " can" ++ [8217%N] ++ s "t have a " ++ [8216%N]); Datum ["param"]; Words ([8217%N] ++ s " parameter")],
    [Para [Words (s "No " ++ [8216%N]); Datum ["param"]; Words ([8217%N] ++ s " parameter is defined for the Basic authentication scheme. See "); Cite (RFC 7617 (Some (s "2")) None None) []; Words (s ".")]]));
  (1208, ([Datum ["header"]; Words (s ": "); Known "AuthScheme" (s "Basic") true; Words (s " can" ++ [8217%N] ++ s "t have a " ++ [8216%N]); Datum ["charset"]; Words ([8217%N] ++ s " charset")],
    [Para [Words (s "According to "); Cite (RFC 7617 (Some (s "2.1")) None None) []; Words (s ", the " ++ [8216%N] ++ s "charset" ++ [8217%N] ++ s " parameter to the Basic authentication scheme can only have the value " ++ [8220%N] ++ s "UTF-8" ++ [8221%N] ++ s ".")]]));
  (1209, ([Words (s "Malformed "); Datum ["header"]; Words (s ": "); Known "AuthScheme" (s "Basic") true],
    [Para [Words (s "In the Basic authentication scheme, credentials are sent as a single Base64 string. See "); Cite (RFC 7617 (Some (s "2")) None None) []; Words (s ".")]]));
  (1210, ([Words (s "Malformed "); Datum ["header"]; Words (s ": "); Known "AuthScheme" (s "Basic") true],
    [Para [Words (s "In the Basic authentication scheme, the user ID and password are combined with a colon " ++ [8216%N] ++ s ":" ++ [8217%N] ++ s " and packed into Base64. In this request" ++ [8217%N] ++ s "s "); Datum ["header"]; Words (s " header, HTTPolice tried to decode them from Base64 and got the following error:")];
     Exception_;
     Para [Words (s "See "); Cite (RFC 7617 (Some (s "2")) None None) []; Words (s ".")]]));
  (1211, ([Words (s "Malformed "); Datum ["header"]; Words (s ": "); Known "AuthScheme" (s "Basic") true],
    [Para [Words (s "In the Basic authentication scheme, the user ID and password are combined with a colon " ++ [8216%N] ++ s ":" ++ [8217%N] ++ s " and packed into Base64. But in this request" ++ [8217%N] ++ s "s "); Datum ["header"]; Words (s " header, there is no " ++ [8216%N] ++ s ":" ++ [8217%N] ++ s " after decoding from Base64. See "); Cite (RFC 7617 (Some (s "2")) None None) []; Words (s ".")]]));
  (1212, ([Datum ["header"]; Words (s ": "); Known "AuthScheme" (s "Basic") true; Words (s " can" ++ [8217%N] ++ s "t contain character "); Datum ["char"]],
    [Para [Cite (RFC 7617 (Some (s "2")) None None) [Words (s "The user-id and password MUST NOT contain any control characters (see" ++ [10%N] ++ s "   ""CTL"" in Appendix B.1 of [RFC5234]).")]]]));
  (1213, ([Known "FieldName" (s "Content-Type") true; Words (s ": "); Datum ["msg"; "headers"; "content_type"; "value"]; Words (s " is not suitable for "); Known "Method" (s "PATCH") true],
    [Para [Words (s "The "); Known "Method" (s "PATCH") true; Words (s " method should only be used with media types that define how to apply the patch. "); Datum ["msg"; "headers"; "content_type"; "value"]; Words (s " is not such a media type.")];
     Para [Words (s "See "); Cite (RFC 5789 None None (Some 3169)) []; Words (s ".")];
     Para [Words (s "For example, "); Known "MediaType" (s "application/merge-patch+json") true; Words (s " would be a suitable patch format for JSON.")]]));
  (1214, ([Datum ["msg"; "request"; "headers"; "content_type"; "value"]; Words (s " patch should be rejected")],
    [Para [Cite (RFC 5789 None None (Some 3169)) [Words (s "If a server receives a "); Known "Method" (s "PATCH") true; Words ([10%N] ++ s "   request with a media type whose specification does not define" ++ [10%N] ++ s "   semantics specific to PATCH, the server SHOULD reject the request by" ++ [10%N] ++ s "   returning the "); Known "StatusCode" (s "415") true; Words (s " Unsupported Media Type status code, unless a more" ++ [10%N] ++ s "   specific error status code takes priority.")]];
     Pointer ["msg"; "request"; "headers"; "content_type"];
     Pointer ["msg"; "status"]]));
  (1215, ([Known "StatusCode" (s "415") true; Words (s " response to "); Known "Method" (s "PATCH") true; Words (s " should have "); Known "FieldName" (s "Accept-Patch") true],
    [Para [Cite (RFC 5789 (Some (s "2.2")) None None) [Words (s "Such a response SHOULD include an" ++ [10%N] ++ s "      "); Known "FieldName" (s "Accept-Patch") true; Words (s " response header as described in Section 3.1 to notify" ++ [10%N] ++ s "      the client what patch document media types are supported.")]]]));
  (1216, ([Words (s "Should send "); Known "FieldName" (s "Accept-Patch") true; Words (s " with " ++ [8220%N]); Known "FieldName" (s "Allow") true; Words (s ":" ++ [160%N]); Known "Method" (s "PATCH") true; Words ([8221%N])],
    [Para [Words (s "This "); Known "Method" (s "OPTIONS") true; Words (s " response indicates in its "); Known "FieldName" (s "Allow") true; Words (s " header that the "); Known "Method" (s "PATCH") true; Words (s " method is supported. According to "); Cite (RFC 5789 (Some (s "3.1")) None None) []; Words (s ", in this case the server should also send an "); Known "FieldName" (s "Accept-Patch") true; Words (s " header.")]]));
  (1217, ([Known "FieldName" (s "Accept-Patch") true; Words (s " implies " ++ [8220%N]); Known "FieldName" (s "Allow") true; Words (s ":" ++ [160%N]); Known "Method" (s "PATCH") false; Words ([8221%N])],
    [Para [Words (s "This response" ++ [8217%N] ++ s "s "); Known "FieldName" (s "Accept-Patch") true; Words (s " header means that this resource supports the "); Known "Method" (s "PATCH") false; Words (s " method, but it" ++ [8217%N] ++ s "s missing from the "); Known "FieldName" (s "Allow") true; Words (s " header.")]]));
  (1218, ([Words (s "HSTS needs a " ++ [8216%N]); Known "HSTSDirective" (s "max-age") true; Words ([8217%N] ++ s " directive")],
    [Para [Words (s "According to "); Cite (RFC 6797 (Some (s "6.1.1")) None None) []; Words (s ", a "); Known "FieldName" (s "Strict-Transport-Security") true; Words (s " header must have a "); Known "HSTSDirective" (s "max-age") true; Words (s " directive.")]]));
  (1219, ([Words (s "HSTS: "); Known "HSTSDirective" (s "includeSubDomains") true; Words (s " has no effect with "); Known "HSTSDirective" (s "max-age") true; Words (s "=0")],
    [Para [Words (s "The " ++ [8220%N]); Known "HSTSDirective" (s "max-age") true; Words (s "=0" ++ [8221%N] ++ s " directive in this response" ++ [8217%N] ++ s "s "); Known "FieldName" (s "Strict-Transport-Security") true; Words (s " header tells the user agent to delete the HSTS policy for the domain. The "); Known "HSTSDirective" (s "includeSubDomains") true; Words (s " directive makes no difference in this case.")];
     Para [Words (s "See "); Cite (RFC 6797 (Some (s "6.2")) None None) []; Words (s ".")]]));
  (1220, ([Words (s "Duplicate " ++ [8216%N]); Datum ["directive"]; Words ([8217%N] ++ s " directive in HSTS")],
    [Para [Cite (RFC 6797 (Some (s "6.1")) None None) [Words (s "All directives MUST appear only once in an STS header field.")]];
     Pointer ["msg"; "headers"; "strict_transport_security"]]));
  (1221, ([Known "FieldName" (s "Strict-Transport-Security") true; Words (s " can" ++ [8217%N] ++ s "t be used without TLS")],
    [Para [Cite (RFC 6797 (Some (s "7.2")) None None) [Words (s "An HSTS Host MUST NOT include the STS header field in HTTP responses" ++ [10%N] ++ s "   conveyed over non-secure transport.")]]]));
  (1222, ([Words (s "Impossible date in "); Datum ["place"]],
    [Para [Words ([8220%N]); Datum ["date"]; Words ([8221%N] ++ s " is not a valid date.")]]));
  (1223, ([Words (s "Impossible time in "); Datum ["place"]],
    [Para [Words ([8220%N]); Datum ["time"]; Words ([8221%N] ++ s " is not a valid time.")]]));
  (1224, ([Words (s "LF without CR in "); Datum ["place"]],
    [Para [Words (s "Lines in HTTP message framing are terminated by two bytes: a carriage return (CR) followed by a line feed (LF). Some implementations accept a bare LF without CR, like in this message, but this is not reliable.")];
     Para [Words (s "See also "); Cite (RFC 7230 (Some (s "3.5")) None None) []; Words (s ".")]]));
  (1225, ([Words (s "Duplicate " ++ [8216%N]); Datum ["name"]; Words ([8217%N] ++ s " parameter in "); Datum ["place"]],
    [Para [Words (s "According to "); Cite (RFC 8288 (Some (s "3")) None None) []; Words (s ", the " ++ [8216%N]); Datum ["name"]; Words ([8217%N] ++ s " parameter must not occur more than once in a single link.")]]));
  (1226, ([Words (s "Deprecated " ++ [8216%N] ++ s "rev" ++ [8217%N] ++ s " parameter in "); Datum ["place"]],
    [Para [Cite (RFC 8288 (Some (s "3.3")) None None) [Words (s "rev is deprecated by this" ++ [10%N] ++ s "   specification because it often confuses authors and readers; in most" ++ [10%N] ++ s "   cases, using a separate relation type is preferable.")]]]));
  (1227, ([Datum ["patch_type"]; Words (s " is not suitable for "); Known "FieldName" (s "Accept-Patch") true],
    [Para [Words (s "The "); Known "Method" (s "PATCH") true; Words (s " method should only be used with media types that define how to apply the patch. "); Datum ["patch_type"]; Words (s " is not such a media type. But this response" ++ [8217%N] ++ s "s "); Known "FieldName" (s "Accept-Patch") true; Words (s " header invites the client to send patches of type "); Datum ["patch_type"]; Words (s ".")];
     Para [Words (s "See "); Cite (RFC 5789 None None (Some 3169)) []; Words (s ".")];
     Para [Words (s "For example, "); Known "MediaType" (s "application/merge-patch+json") true; Words (s " would be a suitable patch format for JSON.")]]));
  (1228, ([Known "FieldName" (s "Upgrade") true; Words (s ": h2 is wrong")],
    [Para [Words (s "This message" ++ [8217%N] ++ s "s "); Known "FieldName" (s "Upgrade") true; Words (s " header includes the token " ++ [8216%N] ++ s "h2" ++ [8217%N] ++ s ", which normally refers to HTTP/2 over TLS. But HTTP/2 over TLS does not use the "); Known "FieldName" (s "Upgrade") true; Words (s " mechanism, and cleartext HTTP/2 uses the " ++ [8216%N] ++ s "h2c" ++ [8217%N] ++ s " token instead, so " ++ [8220%N] ++ s "Upgrade:" ++ [160%N] ++ s "h2" ++ [8221%N] ++ s " is wrong.")];
     Para [Words (s "See "); Cite (RFC 7540 (Some (s "3")) None None) []; Words (s ".")]]));
  (1230, ([Known "FieldName" (s "HTTP2-Settings") true; Words (s " needs " ++ [8220%N]); Known "FieldName" (s "Connection") true; Words (s ":" ++ [160%N] ++ s "http2-settings" ++ [8221%N])],
    [Para [Cite (RFC 7540 (Some (s "3.2.1")) None None) [Words (s "Since the upgrade is only intended to apply to the immediate" ++ [10%N] ++ s "   connection, a client sending the "); Known "FieldName" (s "HTTP2-Settings") true; Words (s " header field MUST" ++ [10%N] ++ s "   also send ""HTTP2-Settings"" as a connection option in the "); Known "FieldName" (s "Connection") true; Words ([10%N] ++ s "   header field to prevent it from being forwarded")]]]));
  (1231, ([Known "FieldName" (s "Upgrade") true; Words (s ":" ++ [160%N] ++ s "h2c needs "); Known "FieldName" (s "HTTP2-Settings") true],
    [Para [Cite (RFC 7540 (Some (s "3.2.1")) None None) [Words (s "A request that upgrades from HTTP/1.1 to HTTP/2 MUST include exactly" ++ [10%N] ++ s "   one ""HTTP2-Settings"" header field.")]]]));
  (1232, ([Words (s "Upgrading to HTTP/2 despite bad "); Known "FieldName" (s "HTTP2-Settings") false],
    [Para [Words (s "According to "); Cite (RFC 7540 (Some (s "3.2.1")) None None) []; Words (s ", the server must not upgrade to HTTP/2 unless the request has exactly one valid "); Known "FieldName" (s "HTTP2-Settings") false; Words (s " header.")];
     Pointer ["msg"; "headers"; "upgrade"];
     Pointer ["msg"; "request"; "headers"; "http2_settings"]]));
  (1233, ([Known "FieldName" (s "Upgrade") true; Words (s ":" ++ [160%N] ++ s "h2c can" ++ [8217%N] ++ s "t be used on a TLS connection")],
    [Para [Words (s "An " ++ [8220%N]); Known "FieldName" (s "Upgrade") true; Words (s ":" ++ [160%N] ++ s "h2c" ++ [8221%N] ++ s " header is used to switch to HTTP/2 from a cleartext HTTP/1.1 connection. But this message was sent on an encrypted (TLS) connection. HTTP/2 over TLS is negotiated by other means.")];
     Para [Words (s "See "); Cite (RFC 7540 (Some (s "3")) None None) []; Words (s ".")]]));
  (1234, ([Words (s "Malformed "); Known "FieldName" (s "HTTP2-Settings") true],
    [Para [Words (s "According to "); Cite (RFC 7540 (Some (s "3.2.1")) None None) []; Words (s ", the "); Known "FieldName" (s "HTTP2-Settings") true; Words (s " header must use the URL- and filename-safe Base64 encoding without padding. This means that it can only contain letters, digits, dash (-), and underscore (_).")]]));
  (1235, ([Known "FieldName" (s "Vary") true; Words (s ": "); Known "FieldName" (s "Host") false; Words (s " is useless")],
    [Para [Words (s "There is no need to include "); Known "FieldName" (s "Host") false; Words (s " in the "); Known "FieldName" (s "Vary") true; Words (s " header, because Host is part of the request URI, and therefore, every HTTP response implicitly varies by Host already. " ++ [8220%N] ++ s "Vary:" ++ [160%N] ++ s "Host" ++ [8221%N] ++ s " can only scare caches away from storing the response.")];
     Para [Words (s "See "); Cite (RFC 7231 (Some (s "7.1.4")) None None) []; Words (s " and "); Cite (RFC 7234 (Some (s "2")) None None) []; Words (s ".")]]));
  (1236, ([Words (s "Absolute URI implies request to proxy")],
    [Para [Words (s "This request" ++ [8217%N] ++ s "s target is an absolute URI. According to "); Cite (RFC 7230 (Some (s "5.3")) None None) []; Words (s ", HTTP/1.1 clients only use this " ++ [8220%N] ++ s "absolute form" ++ [8221%N] ++ s " when connecting to proxies. Therefore, HTTPolice assumes that this request is to a proxy.")];
     Pointer ["msg"; "target"];
     Pointer ["msg"; "version"]]));
  (1237, ([Words (s "Response to a direct request can" ++ [8217%N] ++ s "t be transformed by a proxy")],
    [Para [Words (s "It seems like this response was transformed by a proxy, but the request was not directed to a proxy.")]]));
  (1238, ([Known "FieldName" (s "Cache-Control") true; Words (s ": "); Datum ["directive1"]; Words (s " has no effect with "); Datum ["directive2"]],
    [Para [Words (s "This response" ++ [8217%N] ++ s "s "); Known "FieldName" (s "Cache-Control") true; Words (s " header includes both the "); Datum ["directive1"]; Words (s " and the "); Datum ["directive2"]; Words (s " directives. But "); Datum ["directive1"]; Words (s " makes no difference when "); Datum ["directive2"]; Words (s " is present.")]]));
  (1239, ([Words (s "Response to "); Known "Method" (s "HEAD") true; Words (s " can" ++ [8217%N] ++ s "t have a body")],
    [Para [Cite (RFC 7231 (Some (s "4.3.2")) None None) [Words (s "The "); Known "Method" (s "HEAD") true; Words (s " method is identical to "); Known "Method" (s "GET") true; Words (s " except that the server MUST NOT" ++ [10%N] ++ s "   send a message body in the response")]];
     Pointer ["msg"; "displayable_body"]]));
  (1240, ([Known "StatusCode" (s "204") true; Words (s " response can" ++ [8217%N] ++ s "t have a body")],
    [Para [Cite (RFC 7231 (Some (s "6.3.5")) None None) [Words (s "The 204 (No Content) status code indicates that the server has" ++ [10%N] ++ s "   successfully fulfilled the request and that there is no additional" ++ [10%N] ++ s "   content to send in the response payload body.")]];
     Pointer ["msg"; "displayable_body"]]));
  (1241, ([Known "FieldName" (s "Date") true; Words (s " + "); Known "FieldName" (s "Age") true; Words (s " is in the future")],
    [Para [Words (s "The "); Known "FieldName" (s "Date") true; Words (s " header is the date and time when the response was originated. And the "); Known "FieldName" (s "Age") true; Words (s " header is how long the response has been cached since then (or since it was revalidated). But in this response, the sum of "); Known "FieldName" (s "Date") true; Words (s " + "); Known "FieldName" (s "Age") true; Words (s " is in the future, so one of them must be wrong.")];
     Para [Words (s "This can happen when a cache mistakenly changes the "); Known "FieldName" (s "Date") true; Words (s " header, or adds an "); Known "FieldName" (s "Age") true; Words (s " header even though it is not a true HTTP cache (according to "); Cite (RFC 7234 None None None) []; Words (s ").")];
     Para [Words (s "Also, this error can be caused by wrong timezone settings.")]]));
  (1242, ([Known "StatusCode" (s "451") true; Words (s " response should include an explanation")],
    [Para [Cite (RFC 7725 (Some (s "3")) None None) [Words (s "Responses using this status code SHOULD include an explanation, in" ++ [10%N] ++ s "   the response body, of the details of the legal demand: the party" ++ [10%N] ++ s "   making it, the applicable legislation or regulation, and what classes" ++ [10%N] ++ s "   of person and resource it applies to.")]]]));
  (1243, ([Known "StatusCode" (s "451") true; Words (s " response should have a " ++ [8216%N] ++ s "blocked-by" ++ [8217%N] ++ s " link")],
    [Para [Cite (RFC 7725 (Some (s "4")) None None) [Words (s "When an entity blocks access to a resource and returns status 451, it" ++ [10%N] ++ s "   SHOULD include a """); Known "FieldName" (s "Link") true; Words (s """ HTTP header field [RFC5988] whose value is a" ++ [10%N] ++ s "   URI reference [RFC3986] identifying itself.  When used for this" ++ [10%N] ++ s "   purpose, the ""Link"" header field MUST have a ""rel"" parameter whose" ++ [10%N] ++ s "   value is ""blocked-by"".")]]]));
  (1244, ([Datum ["header"]; Words (s " header can" ++ [8217%N] ++ s "t be used in HTTP/2")],
    [Para [Cite (RFC 7540 (Some (s "8.1.2.2")) None None) [Words (s "An endpoint MUST NOT" ++ [10%N] ++ s "   generate an HTTP/2 message containing connection-specific header" ++ [10%N] ++ s "   fields")]];
     Para [Cite (RFC 7540 (Some (s "8.1.2.2")) None None) [Words (s "The only exception to this is the "); Known "FieldName" (s "TE") false; Words (s " header field, which MAY be" ++ [10%N] ++ s "   present in an HTTP/2 request; when it is, it MUST NOT contain any" ++ [10%N] ++ s "   value other than ""trailers"".")]];
     Pointer ["msg"; "version"]]));
  (1245, ([Known "FieldName" (s "Upgrade") true; Words (s " header can" ++ [8217%N] ++ s "t be used in HTTP/2")],
    [Para [Cite (RFC 7540 (Some (s "8.1.2.2")) None None) [Words (s "HTTP/2 purposefully does not support upgrade to another" ++ [10%N] ++ s "      protocol.")]];
     Pointer ["msg"; "version"]]));
  (1246, ([Known "StatusCode" (s "101") true; Words (s " response can" ++ [8217%N] ++ s "t be used in HTTP/2")],
    [Para [Cite (RFC 7540 (Some (s "8.1.1")) None None) [Words (s "HTTP/2 removes support for the "); Known "StatusCode" (s "101") true; Words (s " (Switching Protocols)" ++ [10%N] ++ s "   informational status code")]];
     Pointer ["msg"; "version"]]));
  (1247, ([Words (s "Duplicate " ++ [8216%N]); Datum ["param"]; Words ([8217%N] ++ s " parameter in "); Known "FieldName" (s "Content-Disposition") true],
    [Para [Cite (RFC 6266 (Some (s "4.1")) None None) [Words (s "Content-Disposition header field values with multiple instances of" ++ [10%N] ++ s "   the same parameter name are invalid.")]]]));
  (1248, ([Words (s "Percent-encoded filename in "); Known "FieldName" (s "Content-Disposition") true; Words (s " may cause problems")],
    [Para [Cite (RFC 6266 None (Some (s "D")) None) [Words (s "Avoid including the percent character followed by two hexadecimal" ++ [10%N] ++ s "      characters (e.g., %A9) in the filename parameter, since some" ++ [10%N] ++ s "      existing implementations consider it to be an escape character," ++ [10%N] ++ s "      while others will pass it through unchanged.")]];
     Para [Words (s "Such a filename can be sent in the special " ++ [8216%N] ++ s "filename*" ++ [8217%N] ++ s " parameter instead. See "); Cite (RFC 6266 (Some (s "4.3")) None None) []; Words (s ".")]]));
  (1249, ([Words (s "Backslash in filename in "); Known "FieldName" (s "Content-Disposition") true; Words (s " may cause problems")],
    [Para [Cite (RFC 6266 None (Some (s "D")) None) [Words (s "Avoid including the ""\"" character in the quoted-string form of the" ++ [10%N] ++ s "      filename parameter, as escaping is not implemented by some user" ++ [10%N] ++ s "      agents, and ""\"" can be considered an illegal path character.")]];
     Para [Words (s "Such a filename can be sent in the special " ++ [8216%N] ++ s "filename*" ++ [8217%N] ++ s " parameter instead. See "); Cite (RFC 6266 (Some (s "4.3")) None None) []; Words (s ".")]]));
  (1250, ([Words (s "Non-ASCII filename in "); Known "FieldName" (s "Content-Disposition") true; Words (s " may cause problems")],
    [Para [Cite (RFC 6266 None (Some (s "D")) None) [Words (s "Avoid using non-ASCII characters in the filename parameter." ++ [10%N] ++ s "      Although most existing implementations will decode them as" ++ [10%N] ++ s "      ISO-8859-1, some will apply heuristics to detect UTF-8, and thus" ++ [10%N] ++ s "      might fail on certain names.")]];
     Para [Words (s "Such a filename can be sent in the special " ++ [8216%N] ++ s "filename*" ++ [8217%N] ++ s " parameter instead. See "); Cite (RFC 6266 (Some (s "4.3")) None None) []; Words (s ".")]]));
  (1251, ([Known "FieldName" (s "Content-Disposition") true; Words (s ": " ++ [8216%N] ++ s "filename*" ++ [8217%N] ++ s " should also have " ++ [8216%N] ++ s "filename" ++ [8217%N] ++ s " as fallback")],
    [Para [Cite (RFC 6266 None (Some (s "D")) None) [Words (s "When a ""filename*"" parameter is sent, to also generate a" ++ [10%N] ++ s "      ""filename"" parameter as a fallback for user agents that do not" ++ [10%N] ++ s "      support the ""filename*"" form, if possible.")]]]));
  (1252, ([Known "FieldName" (s "Content-Disposition") true; Words (s ": " ++ [8216%N] ++ s "filename*" ++ [8217%N] ++ s " should come after " ++ [8216%N] ++ s "filename" ++ [8217%N])],
    [Para [Cite (RFC 6266 None (Some (s "D")) None) [Words (s "When a ""filename"" parameter is included as a fallback (as per" ++ [10%N] ++ s "      above), ""filename"" should occur first, due to parsing problems in" ++ [10%N] ++ s "      some existing implementations.")]]]));
  (1253, ([Words (s "Bad charset " ++ [8216%N]); Datum ["charset"]; Words ([8217%N] ++ s " in "); Datum ["place"]],
    [Para [Cite (RFC 8187 (Some (s "3.2.1")) None None) [Words (s "Producers MUST use the ""UTF-8"" ([RFC3629]) character encoding." ++ [10%N] ++ s "   Extension character encodings (mime-charset) are reserved for future" ++ [10%N] ++ s "   use.")]]]));
  (1254, ([Words (s "Bad "); Datum ["charset"]; Words (s " value in "); Datum ["place"]],
    [Para [Words (s "This message" ++ [8217%N] ++ s "s "); Datum ["place"]; Words (s " contains a "); Datum ["charset"]; Words (s " encoded value in the form defined by "); Cite (RFC 8187 None None None) []; Words (s ". But HTTPolice tried to decode it from "); Datum ["charset"]; Words (s " and got the following error:")];
     Exception_]));
  (1256, ([Words (s "Bad encoding of protocol ID in "); Known "FieldName" (s "Alt-Svc") true],
    [Para [Words (s "This message" ++ [8217%N] ++ s "s "); Known "FieldName" (s "Alt-Svc") true; Words (s " contains a protocol ID encoded as " ++ [8220%N]); Datum ["actual"]; Words ([8221%N] ++ s ". But according to "); Cite (RFC 7838 (Some (s "3")) None None) []; Words (s ", it must be encoded as " ++ [8220%N]); Datum ["correct"]; Words ([8221%N] ++ s ".")]]));
  (1257, ([Words (s "Malformed authority in "); Known "FieldName" (s "Alt-Svc") true],
    [Para [Words ([8220%N]); Datum ["authority"]; Words ([8221%N] ++ s " is not a valid "); Known "FieldName" (s "Alt-Svc") true; Words (s " authority, according to "); Cite (RFC 7838 (Some (s "3")) None None) []; Words (s ".")];
     Exception_]));
  (1258, ([Words (s "HTTP/2 should use ALTSVC frame instead of "); Known "FieldName" (s "Alt-Svc") true; Words (s " header")],
    [Para [Cite (RFC 7838 (Some (s "3")) None None) []; Words (s " recommends using ALTSVC frames instead of the "); Known "FieldName" (s "Alt-Svc") true; Words (s " header on HTTP/2 connections.")];
     Pointer ["msg"; "version"]]));
  (1260, ([Known "StatusCode" (s "421") true; Words (s " response can" ++ [8217%N] ++ s "t have "); Known "FieldName" (s "Alt-Svc") true],
    [Para [Cite (RFC 7838 (Some (s "6")) None None) [Words (s "An "); Known "FieldName" (s "Alt-Svc") true; Words (s " header field in a "); Known "StatusCode" (s "421") true; Words (s " (Misdirected Request) response MUST" ++ [10%N] ++ s "   be ignored.")]]]));
  (1261, ([Known "FieldName" (s "Authorization") true; Words (s ": "); Known "AuthScheme" (s "Bearer") true; Words (s " requires TLS")],
    [Para [Cite (RFC 6750 (Some (s "5.3")) None None) [Words (s "Clients MUST always use TLS [RFC5246]" ++ [10%N] ++ s "      (https) or equivalent transport security when making requests with" ++ [10%N] ++ s "      bearer tokens.  Failing to do so exposes the token to numerous" ++ [10%N] ++ s "      attacks that could give attackers unintended access.")]]]));
  (1262, ([Words (s "Malformed "); Known "FieldName" (s "Authorization") true; Words (s ": "); Known "AuthScheme" (s "Bearer") true],
    [Para [Words (s "In the Bearer authentication scheme, credentials are sent as a single token. See "); Cite (RFC 6750 (Some (s "2.1")) None None) []; Words (s ".")]]));
  (1263, ([Known "FieldName" (s "WWW-Authenticate") true; Words (s ": "); Known "AuthScheme" (s "Bearer") true; Words (s " requires TLS")],
    [Para [Words (s "According to "); Cite (RFC 6750 (Some (s "5.3")) None None) []; Words (s ", bearer tokens must not be used without TLS. Instead of prompting the client to send a token on an insecure connection, perhaps it would be better to redirect to an " ++ [8216%N] ++ s "https:" ++ [8217%N] ++ s " URI first.")]]));
  (1264, ([Words (s "Malformed "); Known "FieldName" (s "WWW-Authenticate") true; Words (s ": "); Known "AuthScheme" (s "Bearer") true],
    [Para [Words (s "A Bearer authentication challenge must have " ++ [8220%N] ++ s "key=value" ++ [8221%N] ++ s " parameters. See "); Cite (RFC 6750 (Some (s "3")) None None) []; Words (s ".")]]));
  (1265, ([Words (s "Duplicate " ++ [8216%N]); Datum ["param"]; Words ([8217%N] ++ s " parameter in " ++ [8220%N]); Known "FieldName" (s "WWW-Authenticate") true; Words (s ": "); Known "AuthScheme" (s "Bearer") true; Words ([8221%N])],
    [Para [Words (s "According to "); Cite (RFC 6750 (Some (s "3")) None None) []; Words (s ", the " ++ [8216%N]); Datum ["param"]; Words ([8217%N] ++ s " parameter must not appear more than once.")]]));
  (1266, ([Words (s "Malformed " ++ [8216%N]); Datum ["param"]; Words ([8217%N] ++ s " parameter in "); Known "FieldName" (s "WWW-Authenticate") true],
    [Para [Words ([8220%N]); Datum ["value"]; Words ([8221%N] ++ s " is not a correct value for a " ++ [8216%N]); Datum ["param"]; Words ([8217%N] ++ s " parameter in a "); Known "AuthScheme" (s "Bearer") true; Words (s " challenge. See "); Cite (RFC 6750 (Some (s "3")) None None) []; Words (s ".")];
     Exception_]));
  (1267, ([Words (s "Declined a "); Known "AuthScheme" (s "Bearer") true; Words (s " token, but no " ++ [8216%N] ++ s "error" ++ [8217%N] ++ s " parameter")],
    [Para [Cite (RFC 6750 (Some (s "3")) None None) [Words (s "If the protected resource request included an access token and failed" ++ [10%N] ++ s "   authentication, the resource server SHOULD include the ""error""" ++ [10%N] ++ s "   attribute to provide the client with the reason why the access" ++ [10%N] ++ s "   request was declined.")]];
     Pointer ["msg"; "request"; "headers"; "authorization"];
     Pointer ["msg"; "status"];
     Pointer ["msg"; "headers"; "www_authenticate"]]));
  (1268, ([Words (s "Response with " ++ [8220%N] ++ s "error="); Datum ["error_code"]; Words ([8221%N] ++ s " should be "); Datum ["expected_status"]],
    [Para [Words (s "According to "); Cite (RFC 6750 (Some (s "3.1")) None None) []; Words (s ", when the server" ++ [8217%N] ++ s "s "); Known "AuthScheme" (s "Bearer") true; Words (s " challenge has " ++ [8220%N] ++ s "error="); Datum ["error_code"]; Words ([8221%N] ++ s ", the status code should be "); Datum ["expected_status"]; Words (s ".")];
     Pointer ["msg"; "status"];
     Pointer ["msg"; "headers"; "www_authenticate"]]));
  (1269, ([Words (s "Unneeded " ++ [8216%N]); Datum ["param"]; Words ([8217%N] ++ s " in "); Known "FieldName" (s "WWW-Authenticate") true],
    [Para [Cite (RFC 6750 (Some (s "3.1")) None None) [Words (s "If the request lacks any authentication information (e.g., the client" ++ [10%N] ++ s "   was unaware that authentication is necessary or attempted using an" ++ [10%N] ++ s "   unsupported authentication method), the resource server SHOULD NOT" ++ [10%N] ++ s "   include an error code or other error information.")]]]));
  (1270, ([Words (s "Access token in URI is insecure")],
    [Para [Words (s "The query string of this request" ++ [8217%N] ++ s "s URI contains an " ++ [8216%N] ++ s "access_token" ++ [8217%N] ++ s " parameter. It" ++ [8217%N] ++ s "s probably a bearer token, as defined in "); Cite (RFC 6750 None None None) []; Words (s ".")];
     Para [Cite (RFC 6750 (Some (s "5.3")) None None) [Words (s "Bearer tokens SHOULD NOT be" ++ [10%N] ++ s "      passed in page URLs (for example, as query string parameters)." ++ [10%N] ++ s "      Instead, bearer tokens SHOULD be passed in HTTP message headers or" ++ [10%N] ++ s "      message bodies for which confidentiality measures are taken." ++ [10%N] ++ s "      Browsers, web servers, and other software may not adequately" ++ [10%N] ++ s "      secure URLs in the browser history, web server logs, and other" ++ [10%N] ++ s "      data structures.  If bearer tokens are passed in page URLs," ++ [10%N] ++ s "      attackers might be able to steal them from the history data, logs," ++ [10%N] ++ s "      or other unsecured locations.")]];
     Pointer ["msg"; "target"]]));
  (1271, ([Words (s "Access token may need TLS")],
    [Para [Words (s "This request has an " ++ [8216%N] ++ s "access_token" ++ [8217%N] ++ s " parameter. It" ++ [8217%N] ++ s "s probably a bearer token, as defined in "); Cite (RFC 6750 None None None) []; Words (s ".")];
     Para [Cite (RFC 6750 (Some (s "5.3")) None None) [Words (s "Clients MUST always use TLS [RFC5246]" ++ [10%N] ++ s "      (https) or equivalent transport security when making requests with" ++ [10%N] ++ s "      bearer tokens.  Failing to do so exposes the token to numerous" ++ [10%N] ++ s "      attacks that could give attackers unintended access.")]];
     Pointer ["where"]]));
  (1272, ([Words (s "Access token in URI needs " ++ [8220%N]); Known "FieldName" (s "Cache-Control") false; Words (s ":" ++ [160%N] ++ s "no-store" ++ [8221%N])],
    [Para [Words (s "According to "); Cite (RFC 6750 (Some (s "2.3")) None None) []; Words (s ", if an access token is sent in the request URI, then the request should at least have a " ++ [8220%N]); Known "FieldName" (s "Cache-Control") false; Words (s ":" ++ [160%N] ++ s "no-store" ++ [8221%N] ++ s " header. This reduces the risk of caches saving this token.")];
     Pointer ["msg"; "target"]]));
  (1273, ([Words (s "Malformed "); Datum ["header"]; Words (s ": "); Known "AuthScheme" (s "Basic") true],
    [Para [Words (s "A Basic authentication challenge must have parameters as " ++ [8220%N] ++ s "key=value" ++ [8221%N] ++ s " pairs. See "); Cite (RFC 7617 (Some (s "2")) None None) []; Words (s ".")]]));
  (1274, ([Datum ["header"]; Words (s " header without credentials")],
    [Para [Words (s "An "); Datum ["header"]; Words (s " header usually consists of two parts: the name of the authentication scheme, and the actual credentials. But in this request, it only contains the scheme (" ++ [8220%N]); Datum ["header"; "value"; "item"]; Words ([8221%N] ++ s ").")];
     Para [Words (s "Was something like " ++ [8220%N]); Datum ["header"]; Words (s ":" ++ [160%N]); Known "AuthScheme" (s "Bearer") true; Words ([160%N]); Datum ["header"; "value"; "item"]; Words ([8221%N] ++ s " intended?")];
     Para [Words (s "See also "); Cite (RFC 7235 (Some (s "2")) None None) []; Words (s ".")]]));
  (1275, ([Words (s "Entity declarations in XML may cause problems")],
    [Para [Words (s "This message" ++ [8217%N] ++ s "s XML content includes entity declarations (<!ENTITY>). Many XML applications do not process such declarations because they can lead to denial-of-service attacks.")];
     Pointer ["msg"; "displayable_body"]]));
  (1276, ([Datum ["header"]; Words (s ": "); Datum ["wildcard"]; Words (s " is as good as "); Datum ["value"]],
    [Para [Words (s "The "); Datum ["header"]; Words (s " header is not an ordered list. Whether "); Datum ["wildcard"]; Words (s " comes before or after "); Datum ["value"]; Words (s ", does not affect its priority. Only explicit quality values (q=) count.")];
     Para [Words (s "In other words, this request says that any "); Datum ["wildcard"]; Words (s " is as acceptable as "); Datum ["value"]; Words (s ".")];
     Para [Words (s "If "); Datum ["wildcard"]; Words (s " is intended to be a fallback, it should have a lower quality value, for example: "); Datum ["wildcard"]; Words (s ";q=0.1")];
     Para [Words (s "See "); Cite (RFC 7231 (Some (s "5.3.1")) None None) []; Words (s ".")]]));
  (1277, ([Words (s "Obsolete " ++ [8216%N] ++ s "X-" ++ [8217%N] ++ s " prefix in headers")],
    [Para [Words (s "Adding an " ++ [8216%N] ++ s "X-" ++ [8217%N] ++ s " prefix to " ++ [8220%N] ++ s "experimental" ++ [8221%N] ++ s " headers is an old practice that is now considered obsolete. See "); Cite (RFC 6648 (Some (s "3")) None None) []; Words (s ".")];
     Para [Words (s "For custom headers that may be generally useful, it" ++ [8217%N] ++ s "s best to drop the " ++ [8216%N] ++ s "X-" ++ [8217%N] ++ s " prefix (but check the "); Cite (Document (Some (s "IANA message headers registry")) (s "https://www.iana.org/assignments/message-headers/message-headers.xhtml")) []; Words (s " to avoid collisions with existing names).")];
     Para [Words (s "For private headers not intended to be used by others, " ++ [8216%N] ++ s "X-" ++ [8217%N] ++ s " can be replaced with something like the organization" ++ [8217%N] ++ s "s name.")];
     Pointer ["headers"]]));
  (1278, ([Words (s "Missing reverse stream")],
    [Para [Words (s "There is a stream file "); Datum ["path"]; Words (s ", but there is no corresponding stream file for the reverse direction. HTTPolice will try to process this file on its own.")]]));
  (1279, ([Words (s "Unprocessable streams")],
    [Para [Words (s "HTTPolice has found the following stream files:")];
     Para [Words (s "file 1: "); Datum ["path1"]];
     Para [Words (s "file 2: "); Datum ["path2"]];
     Para [Words (s "but cannot detect which of them is the inbound stream and which is the outbound.")];
     Para [Words (s "This means that the connection was not HTTP/1.x, or was encrypted, or that the files are somehow malformed. They will not be processed.")]]));
  (1280, ([Words ([8216%N] ++ s "charset" ++ [8217%N] ++ s " parameter is undefined for "); Known "MediaType" (s "application/json") true],
    [Para [Words (s "The "); Known "MediaType" (s "application/json") true; Words (s " media type does not have a " ++ [8216%N] ++ s "charset" ++ [8217%N] ++ s " parameter. "); Cite (RFC 8259 (Some (s "11")) None None) [Words (s "Adding one really has no effect on compliant recipients.")]];
     Pointer ["header"];
     Para [Words (s "See also "); Cite (RFC 8259 (Some (s "8.1")) None None) []; Words (s ".")]]));
  (1281, ([Datum ["msg"; "guessed_charset"]; Words (s " is a bad encoding for JSON")],
    [Para [Cite (RFC 8259 (Some (s "8.1")) None None) [Words (s "JSON text exchanged between systems that are not part of a closed" ++ [10%N] ++ s "   ecosystem MUST be encoded using UTF-8")]];
     Pointer ["msg"; "headers"; "content_type"];
     Pointer ["msg"; "displayable_body"]]));
  (1282, ([Words (s "Wrong media type "); Datum ["bad"]; Words (s " in "); Datum ["place"]],
    [Para [Words (s "There is no such media type "); Datum ["bad"]; Words (s ". Probably "); Datum ["good"]; Words (s " was intended.")]]));
  (1283, ([Words (s "Cacheable "); Known "StatusCode" (s "421") true; Words (s " response may cause problems")],
    [Para [Known "StatusCode" (s "421") true; Words (s " responses are defined as cacheable by default. However, because of how an HTTP cache works ("); Cite (RFC 7234 (Some (s "2")) None None) []; Words (s "), it is harmful to cache a 421 response, as it would be returned on subsequent requests to the same URI, without even trying to connect to the right server.")];
     Para [Words (s "To avoid this, a 421 response to "); Datum ["msg"; "request"; "method"]; Words (s " should be marked as non-cacheable with a header like " ++ [8220%N]); Known "FieldName" (s "Cache-Control") true; Words (s ": "); Known "CacheDirective" (s "no-store") true; Words ([8221%N] ++ s ".")];
     Para [Words (s "See "); Cite (RFC 7540 None None (Some 4666)) []; Words (s ".")]]));
  (1284, ([Known "StatusCode" (s "202") true; Words (s " response should have a body")],
    [Para [Cite (RFC 7231 (Some (s "6.3.3")) None None) [Words (s "The representation sent with this" ++ [10%N] ++ s "   response ought to describe the request's current status and point to" ++ [10%N] ++ s "   (or embed) a status monitor that can provide the user with an" ++ [10%N] ++ s "   estimate of when the request will be fulfilled.")]]]));
  (1285, ([Words (s "Duplicate " ++ [8216%N]); Datum ["name"]; Words ([8217%N] ++ s " token in "); Known "FieldName" (s "Prefer") true],
    [Para [Cite (RFC 7240 (Some (s "2")) None None) [Words (s "To avoid any possible ambiguity, individual preference tokens SHOULD" ++ [10%N] ++ s "   NOT appear multiple times within a single request.")]]]));
  (1286, ([Known "FieldName" (s "Preference-Applied") true; Words (s ": "); Datum ["name"]; Datum ["value"]; Words (s " was not requested")],
    [Para [Words ([8220%N]); Known "FieldName" (s "Preference-Applied") true; Words (s ": "); Datum ["name"]; Datum ["value"]; Words ([8221%N] ++ s " means that the server honored the client" ++ [8217%N] ++ s "s preference "); Datum ["name"]; Datum ["value"]; Words (s ". But the client did not request "); Datum ["name"]; Datum ["value"]; Words (s " in its "); Known "FieldName" (s "Prefer") true; Words (s " header.")];
     Pointer ["msg"; "request"; "headers"; "prefer"]]));
  (1287, ([Datum ["msg"; "method"]; Words (s " request cannot "); Known "FieldName" (s "Prefer") true; Words (s ": "); Known "Preference" (s "respond-async") true],
    [Para [Words (s "The whole point of a "); Datum ["msg"; "method"]; Words (s " request is to retrieve information from the server. It" ++ [8217%N] ++ s "s impossible to respond asynchronously to such a request: the response would not contain the requested information.")];
     Para [Words (s "If the intention was to submit a task that would eventually send the results somewhere, this submission itself should probably be a "); Known "Method" (s "POST") true; Words (s ".")]]));
  (1288, ([Known "Method" (s "GET") true; Words (s " request cannot "); Known "FieldName" (s "Prefer") true; Words (s ": "); Known "Preference" (s "return") true; Words (s "=minimal")],
    [Para [Words (s "The whole point of a "); Known "Method" (s "GET") true; Words (s " request is to retrieve a representation of the resource (as in " ++ [8220%N]); Known "Preference" (s "return") true; Words (s "=representation" ++ [8221%N] ++ s "). There is no " ++ [8220%N] ++ s "minimal" ++ [8221%N] ++ s " response that could satisfy this request.")];
     Para [Words (s "Instead, the "); Known "FieldName" (s "Accept") true; Words (s " header could be used to select the desired kind of representation.")]]));
  (1289, ([Known "FieldName" (s "Prefer") true; Words (s ": "); Known "Preference" (s "return") true; Words (s "=minimal contradicts "); Known "Preference" (s "return") true; Words (s "=representation")],
    [Para [Cite (RFC 7240 (Some (s "4.2")) None None) [Words (s "The ""return=minimal"" and ""return=representation"" preferences are" ++ [10%N] ++ s "   mutually exclusive directives.")]]]));
  (1290, ([Known "FieldName" (s "Prefer") true; Words (s ": "); Known "Preference" (s "handling") true; Words (s "=strict contradicts "); Known "Preference" (s "handling") true; Words (s "=lenient")],
    [Para [Cite (RFC 7240 (Some (s "4.4")) None None) [Words (s "The ""handling=strict"" and ""handling=lenient"" preferences are mutually" ++ [10%N] ++ s "   exclusive directives.")]]]));
  (1291, ([Words (s "Response with "); Known "FieldName" (s "Preference-Applied") true; Words (s " may need " ++ [8220%N]); Known "FieldName" (s "Vary") true; Words (s ": "); Known "FieldName" (s "Prefer") true; Words ([8221%N])],
    [Para [Cite (RFC 7240 (Some (s "2")) None None) [Words (s "If a server supports the optional" ++ [10%N] ++ s "   application of a preference that might result in a variance to a" ++ [10%N] ++ s "   cache's handling of a response entity, a "); Known "FieldName" (s "Vary") true; Words (s " header field MUST be" ++ [10%N] ++ s "   included in the response listing the "); Known "FieldName" (s "Prefer") true; Words (s " header field")]];
     Pointer ["msg"; "request"; "headers"; "prefer"]]));
  (1292, ([Words (s "Invalid method " ++ [8216%N]); Datum ["msg"; "method"]; Words ([8217%N])],
    [Exception_]));
  (1293, ([Words (s "Invalid field name " ++ [8216%N]); Datum ["header"]; Words ([8217%N])],
    [Exception_]));
  (1294, ([Words (s "Syntax error in reason phrase")],
    [Exception_;
     Pointer ["msg"; "status"]]));
  (1295, ([Words (s "Method " ++ [8216%N]); Datum ["msg"; "method"]; Words ([8217%N] ++ s " should probably be " ++ [8216%N]); Datum ["uppercase"]; Words ([8217%N])],
    [Para [Cite (RFC 7231 (Some (s "4.1")) None None) [Words (s "The method token is case-sensitive")]]]));
  (1296, ([Words (s "Duplicate " ++ [8216%N]); Datum ["param"]; Words ([8217%N] ++ s " parameter in "); Datum ["entry"]],
    [Para [Cite (RFC 7239 (Some (s "4")) None None) [Words (s "Each parameter MUST NOT occur more than once per field-value.")]]]));
  (1297, ([Words (s "Possibly bad syntax in "); Datum ["entry"]],
    [Para [Words (s "The "); Known "FieldName" (s "Forwarded") false; Words (s " header here contains "); Datum ["n_elements"]; Words (s " elements, describing "); Datum ["n_elements"]; Words (s " proxy hops, with only one parameter for each proxy " ++ [8212%N] ++ s " yet all parameters have different names.")];
     Para [Words (s "If this was intended to be "); Datum ["n_elements"]; Words (s " parameters for a single proxy hop, then the pairs must be separated with semicolons, not commas.")]]));
  (1298, ([Words (s "Body is too long to be checked")],
    [Para [Words (s "This message" ++ [8217%N] ++ s "s "); Datum ["place"]; Words (s " indicates that the body is at least "); Datum ["size"]; Words (s " bytes long. HTTPolice does not attempt to process bodies longer than "); Datum ["max_size"]; Words (s " bytes. The rest of the stream will not be processed either.")]]));
  (1299, ([Words (s "Quoted comma in "); Datum ["entry"]; Words (s " might confuse a naive parser")],
    [Para [Words (s "This message" ++ [8217%N] ++ s "s "); Datum ["entry"]; Words (s " header contains a comma inside a quoted string. But experience shows that headers like "); Datum ["entry"]; Words (s " are often parsed without regard for quoted strings" ++ [8212%N] ++ s "such a naive parser might interpret this comma as a separator between "); Datum ["entry"]; Words (s " elements. If possible, avoiding this comma might help interoperability.")]]));
  (1300, ([Words (s "Quoted semicolon in "); Datum ["entry"]; Words (s " might confuse a naive parser")],
    [Para [Words (s "This message" ++ [8217%N] ++ s "s "); Datum ["entry"]; Words (s " header contains a semicolon inside a quoted string. But experience shows that headers like "); Datum ["entry"]; Words (s " are often parsed without regard for quoted strings" ++ [8212%N] ++ s "such a naive parser might interpret this semicolon as a separator between "); Datum ["entry"]; Words (s " parameters. If possible, avoiding this semicolon might help interoperability.")]]));
  (1301, ([Known "FieldName" (s "Cache-Control") true; Words (s ": "); Known "CacheDirective" (s "immutable") true; Words (s " probably needs "); Known "CacheDirective" (s "max-age") true],
    [Para [Words ([8220%N]); Known "FieldName" (s "Cache-Control") true; Words (s ": "); Known "CacheDirective" (s "immutable") true; Words ([8221%N] ++ s " is typically only useful with a large "); Known "CacheDirective" (s "max-age") true; Words (s " or an "); Known "FieldName" (s "Expires") true; Words (s " far in the future, because immutable applies only for as long as the response is considered fresh. Without explicit max-age or Expires, most caches will consider this response fresh only for a brief period or not at all.")]]));
  (1302, ([Known "FieldName" (s "Cache-Control") true; Words (s ": "); Known "CacheDirective" (s "immutable") true; Words (s " may be ignored without TLS")],
    [Para [Cite (RFC 8246 None None None) [Words (s "Clients SHOULD ignore the "); Known "CacheDirective" (s "immutable") true; Words (s " extension from resources that" ++ [10%N] ++ s "      are not part of an authenticated context such as HTTPS.")]]]));
  (1303, ([Known "FieldName" (s "Cache-Control") true; Words (s ": "); Known "CacheDirective" (s "immutable") true; Words (s " may be ignored without response length")],
    [Para [Cite (RFC 8246 None None None) [Words (s "Clients SHOULD ignore the "); Known "CacheDirective" (s "immutable") true; Words (s " extension for resources that" ++ [10%N] ++ s "      do not provide a strong indication that the stored response size" ++ [10%N] ++ s "      is the correct response size such as responses delimited by" ++ [10%N] ++ s "      connection close.")]]]));
  (1304, ([Datum ["msg"; "status"]; Words (s " response after "); Datum ["previous"; "status"]],
    [Para [Words (s "It appears like this "); Datum ["msg"; "status"]; Words (s " response was preceded by a "); Datum ["previous"; "status"]; Words (s " response to the same request. But a "); Datum ["previous"; "status"]; Words (s " response can only be the final response to a request. See also "); Cite (RFC 7231 (Some (s "6.2")) None None) []; Words (s ".")];
     Para [Words (s "This is more likely to be a bug in your HTTPolice integration than in the actual HTTP traffic being inspected. For example, responses to different requests may have been mixed up somehow.")]]));
  (1305, ([Words (s "Expected "); Known "StatusCode" (s "100") true; Words (s " (Continue) before switching protocols")],
    [Para [Cite (RFC 7230 (Some (s "6.7")) None None) [Words (s "If a server receives both an "); Known "FieldName" (s "Upgrade") false; Words (s " and an "); Known "FieldName" (s "Expect") true; Words (s " header field with" ++ [10%N] ++ s "   the ""100-continue"" expectation (Section 5.1.1 of [RFC7231]), the" ++ [10%N] ++ s "   server MUST send a "); Known "StatusCode" (s "100") true; Words (s " (Continue) response before sending a "); Known "StatusCode" (s "101") true; Words ([10%N] ++ s "   (Switching Protocols) response.")]];
     Pointer ["msg"; "request"; "headers"; "expect"]]));
  (1306, ([Words (s "Response to "); Datum ["msg"; "request"; "version"]; Words (s " can" ++ [8217%N] ++ s "t have "); Known "FieldName" (s "Transfer-Encoding") true],
    [Para [Cite (RFC 7231 (Some (s "3.3.1")) None None) [Words (s "A server MUST NOT send a" ++ [10%N] ++ s "   response containing Transfer-Encoding unless the corresponding" ++ [10%N] ++ s "   request indicates HTTP/1.1 (or later).")]]]));
  (1307, ([Words (s "Unquoted " ++ [8216%N] ++ s "title" ++ [8217%N] ++ s " parameter in "); Datum ["place"]; Words (s " may cause problems")],
    [Para [Cite (RFC 8288 (Some (s "3")) None None) [Words (s "Previous definitions of the Link header did not equate the token and" ++ [10%N] ++ s "   quoted-string forms explicitly; the title parameter was always" ++ [10%N] ++ s "   quoted, and the hreflang parameter was always a token.  Senders" ++ [10%N] ++ s "   wishing to maximize interoperability will send them in those forms.")]]]));
  (1308, ([Words (s "Quoted " ++ [8216%N] ++ s "hreflang" ++ [8217%N] ++ s " parameter in "); Datum ["place"]; Words (s " may cause problems")],
    [Para [Cite (RFC 8288 (Some (s "3")) None None) [Words (s "Previous definitions of the Link header did not equate the token and" ++ [10%N] ++ s "   quoted-string forms explicitly; the title parameter was always" ++ [10%N] ++ s "   quoted, and the hreflang parameter was always a token.  Senders" ++ [10%N] ++ s "   wishing to maximize interoperability will send them in those forms.")]]]));
  (1309, ([Words (s "Missing " ++ [8216%N] ++ s "rel" ++ [8217%N] ++ s " parameter in "); Datum ["place"]],
    [Para [Cite (RFC 8288 (Some (s "3.3")) None None) [Words (s "The rel parameter MUST be" ++ [10%N] ++ s "   present")]]]));
  (1310, ([Known "FieldName" (s "Accept-Post") true; Words (s " implies " ++ [8220%N]); Known "FieldName" (s "Allow") true; Words (s ":" ++ [160%N]); Known "Method" (s "POST") false; Words ([8221%N])],
    [Para [Words (s "This response" ++ [8217%N] ++ s "s "); Known "FieldName" (s "Accept-Post") true; Words (s " header means that this resource supports the "); Known "Method" (s "POST") false; Words (s " method, but it" ++ [8217%N] ++ s "s missing from the "); Known "FieldName" (s "Allow") true; Words (s " header.")]]))].
