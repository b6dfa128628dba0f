(** The titles of notices (httpolice/notices.xml) and of status codes
    (httpolice/known/status_code.csv).  This file is made from those by a script. *)
From Coq Require Import String.
From Verif Require Import Base.
Open Scope nat_scope.
Open Scope list_scope.
Unset Strict Implicit.

(** A piece of a title, as the list [content] has it (httpolice/notice.py:73-91):
    text, already stripped at the ends of the title; an element for something
    known in advance, by its text (144-153; numbers such as status codes are
    written as [str()] writes them); a reference to the context (107-115). *)
Inductive piece := Plain (x : str) | Term (x : str) | Var (path : list string).

Local Open Scope string_scope.
Local Open Scope list_scope.
(** httpolice/notices.xml:27-2270 *)
Definition titles : list (N * list piece) := [
  (1000%N, [Plain (s "Syntax error in "); Var ["place"]; Plain (s " header")]);
  (1001%N, [Plain (s "Final "); Term (s "Transfer-Encoding"); Plain (s " must be " ++ [8216%N]); Term (s "chunked"); Plain ([8217%N])]);
  (1002%N, [Term (s "Transfer-Encoding"); Plain (s " can" ++ [8217%N] ++ s "t have " ++ [8216%N]); Term (s "chunked"); Plain ([8217%N] ++ s " twice")]);
  (1003%N, [Plain (s "Not decoding "); Term (s "Transfer-Encoding"); Plain (s ": "); Var ["coding"]]);
  (1004%N, [Plain (s "Message is incomplete according to "); Term (s "Content-Length")]);
  (1005%N, [Plain (s "Malformed "); Term (s "Transfer-Encoding"); Plain (s ": "); Term (s "chunked")]);
  (1006%N, [Plain (s "Malformed request heading")]);
  (1007%N, [Plain (s "Stop parsing request stream")]);
  (1008%N, [Plain (s "Not enough requests")]);
  (1009%N, [Plain (s "Malformed response heading")]);
  (1010%N, [Plain (s "Stop parsing response stream")]);
  (1011%N, [Plain (s "Switching protocols")]);
  (1012%N, [Plain (s "Switching to a tunnel")]);
  (1013%N, [Plain (s "Multiple "); Var ["header"]; Plain (s " headers are forbidden")]);
  (1014%N, [Plain (s "RWS in "); Var ["place"]; Plain (s " should be a single space")]);
  (1015%N, [Plain (s "Bad whitespace (BWS) in "); Var ["place"]]);
  (1016%N, [Plain (s "Obsolete line folding in headers")]);
  (1017%N, [Plain (s "Strange escaping in "); Var ["place"]]);
  (1018%N, [Term (s "Transfer-Encoding"); Plain (s " is forbidden in a "); Var ["msg"; "status"]; Plain (s " response")]);
  (1019%N, [Term (s "Transfer-Encoding"); Plain (s " is forbidden in a "); Var ["msg"; "status"]; Plain (s " response to "); Term (s "CONNECT")]);
  (1020%N, [Plain (s "Can" ++ [8217%N] ++ s "t have both "); Term (s "Transfer-Encoding"); Plain (s " and "); Term (s "Content-Length")]);
  (1021%N, [Var ["msg"; "method"]; Plain (s " request should have "); Term (s "Content-Length")]);
  (1022%N, [Plain (s "Empty "); Var ["msg"; "method"]; Plain (s " request shouldn" ++ [8217%N] ++ s "t have "); Term (s "Content-Length")]);
  (1023%N, [Term (s "Content-Length"); Plain (s " is forbidden in a "); Var ["msg"; "status"]; Plain (s " response")]);
  (1024%N, [Term (s "Content-Length"); Plain (s " is forbidden in a "); Var ["msg"; "status"]; Plain (s " response to "); Term (s "CONNECT")]);
  (1025%N, [Plain (s "Response delimited only by closing the connection")]);
  (1026%N, [Var ["entry"]; Plain (s " is forbidden in a trailer")]);
  (1027%N, [Plain (s "Could not decode "); Term (s "Transfer-Encoding"); Plain (s ": "); Var ["coding"]]);
  (1028%N, [Plain ([8220%N]); Term (s "TE"); Plain (s ": "); Term (s "chunked"); Plain ([8221%N] ++ s " is forbidden")]);
  (1029%N, [Term (s "TE"); Plain (s " header requires " ++ [8220%N]); Term (s "Connection"); Plain (s ": TE" ++ [8221%N])]);
  (1030%N, [Var ["header"]; Plain (s " was not announced in the "); Term (s "Trailer"); Plain (s " header")]);
  (1031%N, [Plain (s "Missing "); Term (s "Host"); Plain (s " header")]);
  (1032%N, [Term (s "Host"); Plain (s " should be the first header")]);
  (1033%N, [Plain (s "Request with a bad "); Term (s "Host"); Plain (s " header must be rejected")]);
  (1034%N, [Plain ([8220%N]); Term (s "Connection"); Plain (s ": "); Var ["header"]; Plain ([8221%N] ++ s " is forbidden")]);
  (1035%N, [Plain (s "Deprecated media type "); Var ["msg"; "headers"; "content_type"; "value"]]);
  (1036%N, [Plain (s "Not decoding "); Term (s "Content-Encoding"); Plain (s ": "); Var ["coding"]]);
  (1037%N, [Plain (s "Could not decode "); Term (s "Content-Encoding"); Plain (s ": "); Var ["coding"]]);
  (1038%N, [Plain (s "Bad JSON body")]);
  (1039%N, [Plain (s "Bad XML body")]);
  (1040%N, [Plain (s "Bad URL-encoded body")]);
  (1041%N, [Plain (s "Body should have a "); Term (s "Content-Type")]);
  (1042%N, [Plain (s "Duplicate " ++ [8216%N]); Var ["param"]; Plain ([8217%N] ++ s " parameter in "); Term (s "Content-Type")]);
  (1045%N, [Plain (s "Syntax error in request target")]);
  (1046%N, [Plain (s "Proxied response needs a "); Term (s "Via"); Plain (s " header")]);
  (1047%N, [Plain (s "Close-delimited response should have " ++ [8220%N]); Term (s "Connection"); Plain (s ": close" ++ [8221%N])]);
  (1048%N, [Term (s "101"); Plain (s " response needs an "); Term (s "Upgrade"); Plain (s " header")]);
  (1049%N, [Plain (s "Switching to a protocol that was not requested")]);
  (1050%N, [Term (s "Upgrade"); Plain (s " header requires " ++ [8220%N]); Term (s "Connection"); Plain (s ": upgrade" ++ [8221%N])]);
  (1051%N, [Term (s "101"); Plain (s " response to an HTTP/1.0 request is forbidden")]);
  (1052%N, [Var ["header"]; Plain (s " makes no sense in a "); Var ["msg"; "status"]; Plain (s " response")]);
  (1053%N, [Var ["header"]; Plain (s " makes no sense in an empty request")]);
  (1054%N, [Term (s "Trailer"); Plain (s " header makes no sense without a chunked body")]);
  (1055%N, [Plain (s "Unnecessary "); Term (s "Content-Location")]);
  (1056%N, [Term (s "GET"); Plain (s " request with a body may cause problems")]);
  (1057%N, [Term (s "HEAD"); Plain (s " request with a body may cause problems")]);
  (1058%N, [Term (s "PUT"); Plain (s " request with "); Term (s "Content-Range"); Plain (s " must be rejected")]);
  (1059%N, [Term (s "DELETE"); Plain (s " request with a body may cause problems")]);
  (1060%N, [Plain (s "Strange "); Term (s "Content-Location"); Plain (s " in response to "); Term (s "DELETE")]);
  (1061%N, [Term (s "CONNECT"); Plain (s " request with a body may cause problems")]);
  (1062%N, [Term (s "OPTIONS"); Plain (s " request with a body needs "); Term (s "Content-Type")]);
  (1063%N, [Var ["header"]; Plain (s " header is for responses")]);
  (1064%N, [Var ["header"]; Plain (s " header is for requests")]);
  (1066%N, [Plain ([8220%N]); Term (s "Expect"); Plain (s ": 100-continue" ++ [8221%N] ++ s " is forbidden on empty requests")]);
  (1067%N, [Term (s "Max-Forwards"); Plain (s " header is undefined for "); Var ["msg"; "method"]; Plain (s " requests")]);
  (1068%N, [Plain (s "Unsecured request must not have a "); Term (s "Referer"); Plain (s " with " ++ [8216%N] ++ s "https:" ++ [8217%N])]);
  (1070%N, [Plain (s "Missing "); Term (s "User-Agent"); Plain (s " header")]);
  (1071%N, [Var ["msg"; "status"]; Plain (s " response to an HTTP/1.0 request is forbidden")]);
  (1072%N, [Term (s "201"); Plain (s " response to "); Var ["msg"; "request"; "method"]; Plain (s " makes no sense")]);
  (1073%N, [Plain (s "Possibly missing "); Term (s "Location"); Plain (s " header")]);
  (1074%N, [Term (s "202"); Plain (s " response to "); Var ["msg"; "request"; "method"]; Plain (s " makes no sense")]);
  (1076%N, [Term (s "205"); Plain (s " response must not have a body")]);
  (1077%N, [Term (s "300"); Plain (s " response should have a body")]);
  (1078%N, [Term (s "301"); Plain (s " response should have a "); Term (s "Location"); Plain (s " header")]);
  (1079%N, [Term (s "302"); Plain (s " response should have a "); Term (s "Location"); Plain (s " header")]);
  (1080%N, [Term (s "303"); Plain (s " response needs a "); Term (s "Location"); Plain (s " header")]);
  (1081%N, [Term (s "303"); Plain (s " response should have a body")]);
  (1082%N, [Plain (s "Status code "); Term (s "305"); Plain (s " is deprecated")]);
  (1083%N, [Plain (s "Status code "); Term (s "306"); Plain (s " is reserved")]);
  (1084%N, [Term (s "307"); Plain (s " response should have a "); Term (s "Location"); Plain (s " header")]);
  (1085%N, [Plain (s "Redirection to the same URI")]);
  (1086%N, [Var ["msg"; "status"]; Plain (s " response to server-wide "); Term (s "OPTIONS"); Plain (s " makes no sense")]);
  (1087%N, [Var ["msg"; "status"]; Plain (s " response should include an explanation")]);
  (1088%N, [Plain (s "Status code "); Term (s "402"); Plain (s " is reserved")]);
  (1089%N, [Term (s "405"); Plain (s " response needs an "); Term (s "Allow"); Plain (s " header")]);
  (1090%N, [Term (s "406"); Plain (s " response, but request wasn" ++ [8217%N] ++ s "t negotiating")]);
  (1092%N, [Term (s "406"); Plain (s " response should have a body")]);
  (1093%N, [Term (s "User-Agent"); Plain (s " contains no actual product")]);
  (1094%N, [Term (s "408"); Plain (s " response should have " ++ [8220%N]); Term (s "Connection"); Plain (s ":" ++ [160%N] ++ s "close" ++ [8221%N])]);
  (1095%N, [Term (s "409"); Plain (s " response to "); Var ["msg"; "request"; "method"]; Plain (s " makes no sense")]);
  (1096%N, [Term (s "409"); Plain (s " response should include an explanation")]);
  (1097%N, [Term (s "411"); Plain (s " response, but request did have "); Term (s "Content-Length")]);
  (1098%N, [Term (s "413"); Plain (s " response, but request had no body")]);
  (1099%N, [Term (s "415"); Plain (s " response, but request had no body")]);
  (1100%N, [Term (s "417"); Plain (s " response, but request had no "); Term (s "Expect")]);
  (1101%N, [Term (s "426"); Plain (s " response needs an "); Term (s "Upgrade"); Plain (s " header")]);
  (1102%N, [Term (s "426"); Plain (s " response, but client is ready to upgrade")]);
  (1103%N, [Plain (s "Not proceeding with protocol upgrade")]);
  (1104%N, [Var ["msg"; "status"]; Plain (s " response should include an explanation")]);
  (1105%N, [Term (s "505"); Plain (s " response, but request had the same HTTP version")]);
  (1106%N, [Term (s "505"); Plain (s " response should have a body")]);
  (1107%N, [Plain (s "Obsolete date-time format in "); Var ["place"]]);
  (1108%N, [Plain (s "Wrong day of week in "); Var ["place"]]);
  (1109%N, [Term (s "Date"); Plain (s " header is in the future")]);
  (1110%N, [Plain (s "Missing "); Term (s "Date"); Plain (s " header")]);
  (1111%N, [Term (s "201"); Plain (s " response can" ++ [8217%N] ++ s "t have "); Term (s "Location"); Plain (s " with a fragment (#)")]);
  (1112%N, [Term (s "Location"); Plain (s " header is undefined for "); Var ["msg"; "status"]; Plain (s " responses")]);
  (1113%N, [Term (s "Retry-After"); Plain (s " is undefined for "); Var ["msg"; "status"]; Plain (s " responses")]);
  (1114%N, [Term (s "405"); Plain (s " response, but "); Term (s "Allow"); Plain (s " includes "); Var ["msg"; "request"; "method"]]);
  (1115%N, [Term (s "Allow"); Plain (s " does not include "); Var ["msg"; "request"; "method"]]);
  (1116%N, [Term (s "Accept-Encoding"); Plain (s ": "); Var ["coding"]; Plain (s " must not have a quality value")]);
  (1117%N, [Term (s "Accept-Language"); Plain (s " shouldn" ++ [8217%N] ++ s "t trigger a "); Term (s "406"); Plain (s " response")]);
  (1118%N, [Term (s "Last-Modified"); Plain (s " can" ++ [8217%N] ++ s "t be later than "); Term (s "Date")]);
  (1119%N, [Plain (s "Backslash in "); Var ["place"]; Plain (s " may cause problems")]);
  (1120%N, [Plain (s "Weak entity tag in "); Term (s "If-Match"); Plain (s " is not supposed to work")]);
  (1121%N, [Term (s "If-None-Match"); Plain (s " was ignored")]);
  (1122%N, [Term (s "If-Modified-Since"); Plain (s " in "); Var ["msg"; "method"]; Plain (s " requests is not supposed to work")]);
  (1123%N, [Term (s "If-Modified-Since"); Plain (s " was ignored")]);
  (1124%N, [Term (s "304"); Plain (s " response is undefined for "); Var ["msg"; "request"; "method"]; Plain (s " requests")]);
  (1125%N, [Var ["msg"; "status"]; Plain (s " response, but request has no preconditions")]);
  (1127%N, [Term (s "304"); Plain (s " response should not have "); Var ["header"]]);
  (1128%N, [Term (s "If-Modified-Since"); Plain (s " on "); Var ["msg"; "request"; "method"]; Plain (s " must be ignored")]);
  (1129%N, [Plain (s "Preconditions on "); Var ["msg"; "request"; "method"]; Plain (s " must be ignored")]);
  (1130%N, [Var ["header"]; Plain (s " on "); Var ["msg"; "method"]; Plain (s " makes no sense")]);
  (1131%N, [Plain (s "Conditional "); Term (s "HEAD"); Plain (s " request is pointless")]);
  (1132%N, [Term (s "Range"); Plain (s " header on "); Var ["msg"; "method"]; Plain (s " is not supposed to work")]);
  (1133%N, [Plain (s "Invalid byte range in "); Var ["place"]]);
  (1134%N, [Term (s "If-Range"); Plain (s " requires a "); Term (s "Range"); Plain (s " header")]);
  (1135%N, [Plain (s "Weak entity tags are forbidden in "); Term (s "If-Range")]);
  (1136%N, [Term (s "206"); Plain (s " response, but request had no "); Term (s "Range")]);
  (1137%N, [Term (s "206"); Plain (s " response to "); Var ["msg"; "request"; "method"]; Plain (s " is forbidden")]);
  (1138%N, [Term (s "206"); Plain (s " response needs range specifiers")]);
  (1139%N, [Plain (s "Multipart boundary not declared")]);
  (1140%N, [Plain (s "Multipart boundary not found")]);
  (1141%N, [Plain (s "No "); Term (s "Content-Range"); Plain (s " in part #"); Var ["part_num"]]);
  (1142%N, [Plain (s "No "); Term (s "Content-Type"); Plain (s " in part #"); Var ["part_num"]]);
  (1143%N, [Term (s "Content-Range"); Plain (s " in a "); Term (s "multipart/byteranges"); Plain (s " response is forbidden")]);
  (1144%N, [Term (s "multipart/byteranges"); Plain (s " response can" ++ [8217%N] ++ s "t be used for a single "); Term (s "Range")]);
  (1145%N, [Term (s "206"); Plain (s " response, but "); Term (s "ETag"); Plain (s " doesn" ++ [8217%N] ++ s "t match "); Term (s "If-Range")]);
  (1146%N, [Plain (s "Unnecessary "); Var ["header"]; Plain (s " header")]);
  (1147%N, [Term (s "Content-Range"); Plain (s " is undefined for "); Var ["msg"; "status"]; Plain (s " responses")]);
  (1148%N, [Plain (s "Invalid byte range in "); Var ["place"]]);
  (1149%N, [Term (s "416"); Plain (s " response to request without "); Term (s "Range"); Plain (s " makes no sense")]);
  (1150%N, [Term (s "416"); Plain (s " response should have "); Term (s "Content-Range")]);
  (1151%N, [Plain (s "Empty list elements in "); Var ["place"]; Plain (s " are forbidden")]);
  (1152%N, [Term (s "Cache-Control"); Plain (s ": "); Var ["directive"]; Plain (s " is for responses")]);
  (1153%N, [Term (s "Cache-Control"); Plain (s ": "); Var ["directive"]; Plain (s " is for requests")]);
  (1154%N, [Term (s "Cache-Control"); Plain (s ": "); Var ["directive"]; Plain (s " should be quoted")]);
  (1155%N, [Term (s "Cache-Control"); Plain (s ": "); Var ["directive"]; Plain (s " should not be quoted")]);
  (1156%N, [Var ["entry"]; Plain (s ": "); Var ["name"]; Plain (s " needs an argument")]);
  (1157%N, [Var ["entry"]; Plain (s ": "); Var ["name"]; Plain (s " can" ++ [8217%N] ++ s "t have an argument")]);
  (1158%N, [Plain (s "Syntax error in "); Var ["place"]; Plain (s ": "); Var ["name"]]);
  (1159%N, [Term (s "Cache-Control"); Plain (s ": "); Term (s "no-cache"); Plain (s " can" ++ [8217%N] ++ s "t have an argument")]);
  (1160%N, [Term (s "Pragma"); Plain (s " other than " ++ [8216%N] ++ s "no-cache" ++ [8217%N] ++ s " is deprecated")]);
  (1161%N, [Plain ([8220%N]); Term (s "Cache-Control"); Plain (s ":" ++ [160%N] ++ s "no-cache" ++ [8221%N] ++ s " should also have " ++ [8220%N]); Term (s "Pragma"); Plain (s ":" ++ [160%N] ++ s "no-cache" ++ [8221%N])]);
  (1162%N, [Term (s "Pragma"); Plain (s ": no-cache is for requests")]);
  (1163%N, [Plain (s "Warn code "); Var ["code"]; Plain (s " not in range 100" ++ [8212%N] ++ s "299")]);
  (1164%N, [Term (s "Warning"); Plain (s " date must match the "); Term (s "Date"); Plain (s " header")]);
  (1165%N, [Plain ([8220%N]); Term (s "Warning"); Plain (s ": "); Var ["code"]; Plain ([8221%N] ++ s " is for responses")]);
  (1166%N, [Plain (s "Response from cache needs an "); Term (s "Age"); Plain (s " header")]);
  (1167%N, [Plain (s "Status code "); Var ["msg"; "status"]; Plain (s " not in range 100" ++ [8212%N] ++ s "599")]);
  (1168%N, [Term (s "Age"); Plain (s " header implies response from cache")]);
  (1169%N, [Plain ([8220%N]); Term (s "Warning"); Plain (s ": "); Var ["code"]; Plain ([8221%N] ++ s " implies response from cache")]);
  (1170%N, [Plain (s "Response from cache older than "); Term (s "max-age")]);
  (1171%N, [Term (s "Cache-Control"); Plain (s ": "); Var ["directive"]; Plain (s " has no effect on "); Var ["msg"; "method"]]);
  (1172%N, [Plain (s "Response to "); Var ["msg"; "request"; "method"]; Plain (s " can" ++ [8217%N] ++ s "t be served from cache")]);
  (1173%N, [Plain (s "Response to " ++ [8220%N]); Term (s "Cache-Control"); Plain (s ": "); Term (s "no-cache"); Plain ([8221%N] ++ s " can" ++ [8217%N] ++ s "t be served from cache")]);
  (1174%N, [Plain (s "Response to " ++ [8220%N]); Term (s "Pragma"); Plain (s ": no-cache" ++ [8221%N] ++ s " can" ++ [8217%N] ++ s "t be served from cache")]);
  (1175%N, [Plain (s "Response with " ++ [8220%N]); Term (s "Cache-Control"); Plain (s ": "); Term (s "no-cache"); Plain ([8221%N] ++ s " can" ++ [8217%N] ++ s "t be served from cache")]);
  (1176%N, [Plain (s "Response with " ++ [8220%N]); Term (s "Cache-Control"); Plain (s ": "); Term (s "no-store"); Plain ([8221%N] ++ s " can" ++ [8217%N] ++ s "t be served from cache")]);
  (1177%N, [Var ["msg"; "status"]; Plain (s " response can" ++ [8217%N] ++ s "t be served from cache by default")]);
  (1178%N, [Plain (s "Heuristic freshness")]);
  (1179%N, [Plain ([8220%N]); Term (s "Warning"); Plain (s ": "); Term (s "113"); Plain ([8221%N] ++ s " implies heuristic freshness")]);
  (1180%N, [Plain (s "Heuristic freshness should have " ++ [8220%N]); Term (s "Warning"); Plain (s ": "); Term (s "113"); Plain ([8221%N])]);
  (1181%N, [Plain (s "Heuristic freshness can" ++ [8217%N] ++ s "t be used when "); Term (s "Expires"); Plain (s " is present")]);
  (1182%N, [Plain (s "Heuristic freshness can" ++ [8217%N] ++ s "t be used when "); Term (s "max-age"); Plain (s " is present")]);
  (1183%N, [Plain ([8220%N]); Term (s "Warning"); Plain (s ": "); Var ["code"]; Plain ([8221%N] ++ s " implies response is stale")]);
  (1184%N, [Plain (s "Response is stale because "); Term (s "Age"); Plain ([160%N] ++ s ">" ++ [160%N]); Term (s "max-age")]);
  (1185%N, [Plain (s "Response is stale because "); Term (s "Age"); Plain ([160%N] ++ s ">" ++ [160%N]); Term (s "Expires"); Plain ([160%N] ++ [8722%N] ++ [160%N]); Term (s "Date")]);
  (1186%N, [Plain (s "Stale response should have " ++ [8220%N]); Term (s "Warning"); Plain (s ": "); Term (s "110"); Plain ([8221%N])]);
  (1187%N, [Plain (s "Response with " ++ [8220%N]); Term (s "Cache-Control"); Plain (s ": "); Term (s "must-revalidate"); Plain ([8221%N] ++ s " can" ++ [8217%N] ++ s "t be served stale")]);
  (1188%N, [Plain (s "Possibly wrong stale response")]);
  (1189%N, [Plain ([8220%N]); Term (s "Warning"); Plain (s ": "); Term (s "214"); Plain ([8221%N] ++ s " means transformed by proxy")]);
  (1190%N, [Plain (s "Status "); Term (s "203"); Plain (s " means transformed by proxy")]);
  (1191%N, [Plain (s "Transformed message needs " ++ [8220%N]); Term (s "Warning"); Plain (s ": "); Term (s "214"); Plain ([8221%N])]);
  (1192%N, [Plain (s "Transformation forbidden by " ++ [8220%N]); Term (s "Cache-Control"); Plain (s ": "); Term (s "no-transform"); Plain ([8221%N])]);
  (1193%N, [Term (s "Cache-Control"); Plain (s ": "); Var ["directive1"]; Plain (s " contradicts "); Var ["directive2"]]);
  (1194%N, [Term (s "401"); Plain (s " response needs a "); Term (s "WWW-Authenticate"); Plain (s " header")]);
  (1195%N, [Term (s "407"); Plain (s " response needs a "); Term (s "Proxy-Authenticate"); Plain (s " header")]);
  (1196%N, [Plain ([8216%N] ++ s "realm" ++ [8217%N] ++ s " parameter in "); Var ["place"]; Plain (s " must be quoted")]);
  (1197%N, [Plain (s "Deprecated header "); Var ["header"]]);
  (1198%N, [Plain ([8220%N]); Term (s "Connection"); Plain (s ":" ++ [160%N] ++ s "close" ++ [8221%N] ++ s " makes no sense in "); Var ["msg"; "status"]; Plain (s " response")]);
  (1199%N, [Plain ([8220%N]); Term (s "Connection"); Plain (s ": close" ++ [8221%N] ++ s " makes no sense in "); Var ["msg"; "status"]; Plain (s " response to "); Term (s "CONNECT")]);
  (1200%N, [Term (s "428"); Plain (s " response, but request has a "); Var ["header"]; Plain (s " precondition")]);
  (1201%N, [Term (s "428"); Plain (s " response should include an explanation")]);
  (1202%N, [Var ["msg"; "status"]; Plain (s " response can" ++ [8217%N] ++ s "t be served from cache")]);
  (1203%N, [Term (s "429"); Plain (s " response should include an explanation")]);
  (1204%N, [Term (s "511"); Plain (s " response should have a body")]);
  (1205%N, [Term (s "308"); Plain (s " response should have a "); Term (s "Location"); Plain (s " header")]);
  (1206%N, [Var ["header"]; Plain (s ": "); Term (s "Basic"); Plain (s " must have " ++ [8216%N] ++ s "realm" ++ [8217%N])]);
  (1207%N, [Var ["header"]; Plain (s ": "); Term (s "Basic"); Plain (s " can" ++ [8217%N] ++ s "t have a " ++ [8216%N]); Var ["param"]; Plain ([8217%N] ++ s " parameter")]);
  (1208%N, [Var ["header"]; Plain (s ": "); Term (s "Basic"); Plain (s " can" ++ [8217%N] ++ s "t have a " ++ [8216%N]); Var ["charset"]; Plain ([8217%N] ++ s " charset")]);
  (1209%N, [Plain (s "Malformed "); Var ["header"]; Plain (s ": "); Term (s "Basic")]);
  (1210%N, [Plain (s "Malformed "); Var ["header"]; Plain (s ": "); Term (s "Basic")]);
  (1211%N, [Plain (s "Malformed "); Var ["header"]; Plain (s ": "); Term (s "Basic")]);
  (1212%N, [Var ["header"]; Plain (s ": "); Term (s "Basic"); Plain (s " can" ++ [8217%N] ++ s "t contain character "); Var ["char"]]);
  (1213%N, [Term (s "Content-Type"); Plain (s ": "); Var ["msg"; "headers"; "content_type"; "value"]; Plain (s " is not suitable for "); Term (s "PATCH")]);
  (1214%N, [Var ["msg"; "request"; "headers"; "content_type"; "value"]; Plain (s " patch should be rejected")]);
  (1215%N, [Term (s "415"); Plain (s " response to "); Term (s "PATCH"); Plain (s " should have "); Term (s "Accept-Patch")]);
  (1216%N, [Plain (s "Should send "); Term (s "Accept-Patch"); Plain (s " with " ++ [8220%N]); Term (s "Allow"); Plain (s ":" ++ [160%N]); Term (s "PATCH"); Plain ([8221%N])]);
  (1217%N, [Term (s "Accept-Patch"); Plain (s " implies " ++ [8220%N]); Term (s "Allow"); Plain (s ":" ++ [160%N]); Term (s "PATCH"); Plain ([8221%N])]);
  (1218%N, [Plain (s "HSTS needs a " ++ [8216%N]); Term (s "max-age"); Plain ([8217%N] ++ s " directive")]);
  (1219%N, [Plain (s "HSTS: "); Term (s "includeSubDomains"); Plain (s " has no effect with "); Term (s "max-age"); Plain (s "=0")]);
  (1220%N, [Plain (s "Duplicate " ++ [8216%N]); Var ["directive"]; Plain ([8217%N] ++ s " directive in HSTS")]);
  (1221%N, [Term (s "Strict-Transport-Security"); Plain (s " can" ++ [8217%N] ++ s "t be used without TLS")]);
  (1222%N, [Plain (s "Impossible date in "); Var ["place"]]);
  (1223%N, [Plain (s "Impossible time in "); Var ["place"]]);
  (1224%N, [Plain (s "LF without CR in "); Var ["place"]]);
  (1225%N, [Plain (s "Duplicate " ++ [8216%N]); Var ["name"]; Plain ([8217%N] ++ s " parameter in "); Var ["place"]]);
  (1226%N, [Plain (s "Deprecated " ++ [8216%N] ++ s "rev" ++ [8217%N] ++ s " parameter in "); Var ["place"]]);
  (1227%N, [Var ["patch_type"]; Plain (s " is not suitable for "); Term (s "Accept-Patch")]);
  (1228%N, [Term (s "Upgrade"); Plain (s ": h2 is wrong")]);
  (1230%N, [Term (s "HTTP2-Settings"); Plain (s " needs " ++ [8220%N]); Term (s "Connection"); Plain (s ":" ++ [160%N] ++ s "http2-settings" ++ [8221%N])]);
  (1231%N, [Term (s "Upgrade"); Plain (s ":" ++ [160%N] ++ s "h2c needs "); Term (s "HTTP2-Settings")]);
  (1232%N, [Plain (s "Upgrading to HTTP/2 despite bad "); Term (s "HTTP2-Settings")]);
  (1233%N, [Term (s "Upgrade"); Plain (s ":" ++ [160%N] ++ s "h2c can" ++ [8217%N] ++ s "t be used on a TLS connection")]);
  (1234%N, [Plain (s "Malformed "); Term (s "HTTP2-Settings")]);
  (1235%N, [Term (s "Vary"); Plain (s ": "); Term (s "Host"); Plain (s " is useless")]);
  (1236%N, [Plain (s "Absolute URI implies request to proxy")]);
  (1237%N, [Plain (s "Response to a direct request can" ++ [8217%N] ++ s "t be transformed by a proxy")]);
  (1238%N, [Term (s "Cache-Control"); Plain (s ": "); Var ["directive1"]; Plain (s " has no effect with "); Var ["directive2"]]);
  (1239%N, [Plain (s "Response to "); Term (s "HEAD"); Plain (s " can" ++ [8217%N] ++ s "t have a body")]);
  (1240%N, [Term (s "204"); Plain (s " response can" ++ [8217%N] ++ s "t have a body")]);
  (1241%N, [Term (s "Date"); Plain (s " + "); Term (s "Age"); Plain (s " is in the future")]);
  (1242%N, [Term (s "451"); Plain (s " response should include an explanation")]);
  (1243%N, [Term (s "451"); Plain (s " response should have a " ++ [8216%N] ++ s "blocked-by" ++ [8217%N] ++ s " link")]);
  (1244%N, [Var ["header"]; Plain (s " header can" ++ [8217%N] ++ s "t be used in HTTP/2")]);
  (1245%N, [Term (s "Upgrade"); Plain (s " header can" ++ [8217%N] ++ s "t be used in HTTP/2")]);
  (1246%N, [Term (s "101"); Plain (s " response can" ++ [8217%N] ++ s "t be used in HTTP/2")]);
  (1247%N, [Plain (s "Duplicate " ++ [8216%N]); Var ["param"]; Plain ([8217%N] ++ s " parameter in "); Term (s "Content-Disposition")]);
  (1248%N, [Plain (s "Percent-encoded filename in "); Term (s "Content-Disposition"); Plain (s " may cause problems")]);
  (1249%N, [Plain (s "Backslash in filename in "); Term (s "Content-Disposition"); Plain (s " may cause problems")]);
  (1250%N, [Plain (s "Non-ASCII filename in "); Term (s "Content-Disposition"); Plain (s " may cause problems")]);
  (1251%N, [Term (s "Content-Disposition"); Plain (s ": " ++ [8216%N] ++ s "filename*" ++ [8217%N] ++ s " should also have " ++ [8216%N] ++ s "filename" ++ [8217%N] ++ s " as fallback")]);
  (1252%N, [Term (s "Content-Disposition"); Plain (s ": " ++ [8216%N] ++ s "filename*" ++ [8217%N] ++ s " should come after " ++ [8216%N] ++ s "filename" ++ [8217%N])]);
  (1253%N, [Plain (s "Bad charset " ++ [8216%N]); Var ["charset"]; Plain ([8217%N] ++ s " in "); Var ["place"]]);
  (1254%N, [Plain (s "Bad "); Var ["charset"]; Plain (s " value in "); Var ["place"]]);
  (1256%N, [Plain (s "Bad encoding of protocol ID in "); Term (s "Alt-Svc")]);
  (1257%N, [Plain (s "Malformed authority in "); Term (s "Alt-Svc")]);
  (1258%N, [Plain (s "HTTP/2 should use ALTSVC frame instead of "); Term (s "Alt-Svc"); Plain (s " header")]);
  (1260%N, [Term (s "421"); Plain (s " response can" ++ [8217%N] ++ s "t have "); Term (s "Alt-Svc")]);
  (1261%N, [Term (s "Authorization"); Plain (s ": "); Term (s "Bearer"); Plain (s " requires TLS")]);
  (1262%N, [Plain (s "Malformed "); Term (s "Authorization"); Plain (s ": "); Term (s "Bearer")]);
  (1263%N, [Term (s "WWW-Authenticate"); Plain (s ": "); Term (s "Bearer"); Plain (s " requires TLS")]);
  (1264%N, [Plain (s "Malformed "); Term (s "WWW-Authenticate"); Plain (s ": "); Term (s "Bearer")]);
  (1265%N, [Plain (s "Duplicate " ++ [8216%N]); Var ["param"]; Plain ([8217%N] ++ s " parameter in " ++ [8220%N]); Term (s "WWW-Authenticate"); Plain (s ": "); Term (s "Bearer"); Plain ([8221%N])]);
  (1266%N, [Plain (s "Malformed " ++ [8216%N]); Var ["param"]; Plain ([8217%N] ++ s " parameter in "); Term (s "WWW-Authenticate")]);
  (1267%N, [Plain (s "Declined a "); Term (s "Bearer"); Plain (s " token, but no " ++ [8216%N] ++ s "error" ++ [8217%N] ++ s " parameter")]);
  (1268%N, [Plain (s "Response with " ++ [8220%N] ++ s "error="); Var ["error_code"]; Plain ([8221%N] ++ s " should be "); Var ["expected_status"]]);
  (1269%N, [Plain (s "Unneeded " ++ [8216%N]); Var ["param"]; Plain ([8217%N] ++ s " in "); Term (s "WWW-Authenticate")]);
  (1270%N, [Plain (s "Access token in URI is insecure")]);
  (1271%N, [Plain (s "Access token may need TLS")]);
  (1272%N, [Plain (s "Access token in URI needs " ++ [8220%N]); Term (s "Cache-Control"); Plain (s ":" ++ [160%N] ++ s "no-store" ++ [8221%N])]);
  (1273%N, [Plain (s "Malformed "); Var ["header"]; Plain (s ": "); Term (s "Basic")]);
  (1274%N, [Var ["header"]; Plain (s " header without credentials")]);
  (1275%N, [Plain (s "Entity declarations in XML may cause problems")]);
  (1276%N, [Var ["header"]; Plain (s ": "); Var ["wildcard"]; Plain (s " is as good as "); Var ["value"]]);
  (1277%N, [Plain (s "Obsolete " ++ [8216%N] ++ s "X-" ++ [8217%N] ++ s " prefix in headers")]);
  (1278%N, [Plain (s "Missing reverse stream")]);
  (1279%N, [Plain (s "Unprocessable streams")]);
  (1280%N, [Plain ([8216%N] ++ s "charset" ++ [8217%N] ++ s " parameter is undefined for "); Term (s "application/json")]);
  (1281%N, [Var ["msg"; "guessed_charset"]; Plain (s " is a bad encoding for JSON")]);
  (1282%N, [Plain (s "Wrong media type "); Var ["bad"]; Plain (s " in "); Var ["place"]]);
  (1283%N, [Plain (s "Cacheable "); Term (s "421"); Plain (s " response may cause problems")]);
  (1284%N, [Term (s "202"); Plain (s " response should have a body")]);
  (1285%N, [Plain (s "Duplicate " ++ [8216%N]); Var ["name"]; Plain ([8217%N] ++ s " token in "); Term (s "Prefer")]);
  (1286%N, [Term (s "Preference-Applied"); Plain (s ": "); Var ["name"]; Var ["value"]; Plain (s " was not requested")]);
  (1287%N, [Var ["msg"; "method"]; Plain (s " request cannot "); Term (s "Prefer"); Plain (s ": "); Term (s "respond-async")]);
  (1288%N, [Term (s "GET"); Plain (s " request cannot "); Term (s "Prefer"); Plain (s ": "); Term (s "return"); Plain (s "=minimal")]);
  (1289%N, [Term (s "Prefer"); Plain (s ": "); Term (s "return"); Plain (s "=minimal contradicts "); Term (s "return"); Plain (s "=representation")]);
  (1290%N, [Term (s "Prefer"); Plain (s ": "); Term (s "handling"); Plain (s "=strict contradicts "); Term (s "handling"); Plain (s "=lenient")]);
  (1291%N, [Plain (s "Response with "); Term (s "Preference-Applied"); Plain (s " may need " ++ [8220%N]); Term (s "Vary"); Plain (s ": "); Term (s "Prefer"); Plain ([8221%N])]);
  (1292%N, [Plain (s "Invalid method " ++ [8216%N]); Var ["msg"; "method"]; Plain ([8217%N])]);
  (1293%N, [Plain (s "Invalid field name " ++ [8216%N]); Var ["header"]; Plain ([8217%N])]);
  (1294%N, [Plain (s "Syntax error in reason phrase")]);
  (1295%N, [Plain (s "Method " ++ [8216%N]); Var ["msg"; "method"]; Plain ([8217%N] ++ s " should probably be " ++ [8216%N]); Var ["uppercase"]; Plain ([8217%N])]);
  (1296%N, [Plain (s "Duplicate " ++ [8216%N]); Var ["param"]; Plain ([8217%N] ++ s " parameter in "); Var ["entry"]]);
  (1297%N, [Plain (s "Possibly bad syntax in "); Var ["entry"]]);
  (1298%N, [Plain (s "Body is too long to be checked")]);
  (1299%N, [Plain (s "Quoted comma in "); Var ["entry"]; Plain (s " might confuse a naive parser")]);
  (1300%N, [Plain (s "Quoted semicolon in "); Var ["entry"]; Plain (s " might confuse a naive parser")]);
  (1301%N, [Term (s "Cache-Control"); Plain (s ": "); Term (s "immutable"); Plain (s " probably needs "); Term (s "max-age")]);
  (1302%N, [Term (s "Cache-Control"); Plain (s ": "); Term (s "immutable"); Plain (s " may be ignored without TLS")]);
  (1303%N, [Term (s "Cache-Control"); Plain (s ": "); Term (s "immutable"); Plain (s " may be ignored without response length")]);
  (1304%N, [Var ["msg"; "status"]; Plain (s " response after "); Var ["previous"; "status"]]);
  (1305%N, [Plain (s "Expected "); Term (s "100"); Plain (s " (Continue) before switching protocols")]);
  (1306%N, [Plain (s "Response to "); Var ["msg"; "request"; "version"]; Plain (s " can" ++ [8217%N] ++ s "t have "); Term (s "Transfer-Encoding")]);
  (1307%N, [Plain (s "Unquoted " ++ [8216%N] ++ s "title" ++ [8217%N] ++ s " parameter in "); Var ["place"]; Plain (s " may cause problems")]);
  (1308%N, [Plain (s "Quoted " ++ [8216%N] ++ s "hreflang" ++ [8217%N] ++ s " parameter in "); Var ["place"]; Plain (s " may cause problems")]);
  (1309%N, [Plain (s "Missing " ++ [8216%N] ++ s "rel" ++ [8217%N] ++ s " parameter in "); Var ["place"]]);
  (1310%N, [Term (s "Accept-Post"); Plain (s " implies " ++ [8220%N]); Term (s "Allow"); Plain (s ":" ++ [160%N]); Term (s "POST"); Plain ([8221%N])])].

(** The column [title] of httpolice/known/status_code.csv:1-67. *)
Definition status_titles : list (Z * str) := [
  (100%Z, (s "Continue"));
  (101%Z, (s "Switching Protocols"));
  (102%Z, (s "Processing"));
  (103%Z, (s "Early Hints"));
  (200%Z, (s "OK"));
  (201%Z, (s "Created"));
  (202%Z, (s "Accepted"));
  (203%Z, (s "Non-Authoritative Information"));
  (204%Z, (s "No Content"));
  (205%Z, (s "Reset Content"));
  (206%Z, (s "Partial Content"));
  (207%Z, (s "Multi-Status"));
  (208%Z, (s "Already Reported"));
  (226%Z, (s "IM Used"));
  (300%Z, (s "Multiple Choices"));
  (301%Z, (s "Moved Permanently"));
  (302%Z, (s "Found"));
  (303%Z, (s "See Other"));
  (304%Z, (s "Not Modified"));
  (305%Z, (s "Use Proxy"));
  (306%Z, (s "(Unused)"));
  (307%Z, (s "Temporary Redirect"));
  (308%Z, (s "Permanent Redirect"));
  (400%Z, (s "Bad Request"));
  (401%Z, (s "Unauthorized"));
  (402%Z, (s "Payment Required"));
  (403%Z, (s "Forbidden"));
  (404%Z, (s "Not Found"));
  (405%Z, (s "Method Not Allowed"));
  (406%Z, (s "Not Acceptable"));
  (407%Z, (s "Proxy Authentication Required"));
  (408%Z, (s "Request Timeout"));
  (409%Z, (s "Conflict"));
  (410%Z, (s "Gone"));
  (411%Z, (s "Length Required"));
  (412%Z, (s "Precondition Failed"));
  (413%Z, (s "Payload Too Large"));
  (414%Z, (s "URI Too Long"));
  (415%Z, (s "Unsupported Media Type"));
  (416%Z, (s "Range Not Satisfiable"));
  (417%Z, (s "Expectation Failed"));
  (421%Z, (s "Misdirected Request"));
  (422%Z, (s "Unprocessable Entity"));
  (423%Z, (s "Locked"));
  (424%Z, (s "Failed Dependency"));
  (425%Z, (s "Too Early"));
  (426%Z, (s "Upgrade Required"));
  (428%Z, (s "Precondition Required"));
  (429%Z, (s "Too Many Requests"));
  (431%Z, (s "Request Header Fields Too Large"));
  (451%Z, (s "Unavailable For Legal Reasons"));
  (500%Z, (s "Internal Server Error"));
  (501%Z, (s "Not Implemented"));
  (502%Z, (s "Bad Gateway"));
  (503%Z, (s "Service Unavailable"));
  (504%Z, (s "Gateway Timeout"));
  (505%Z, (s "HTTP Version Not Supported"));
  (506%Z, (s "Variant Also Negotiates"));
  (507%Z, (s "Insufficient Storage"));
  (508%Z, (s "Loop Detected"));
  (510%Z, (s "Not Extended"));
  (511%Z, (s "Network Authentication Required"))].
