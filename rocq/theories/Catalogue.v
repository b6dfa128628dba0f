(** The catalogue of notices (httpolice/notices.xml, loaded by
    httpolice/notice.py:171-183).  This file is made from notices.xml by a
    script: for every notice its id, its severity (the name of its element,
    httpolice/notice.py:45-56), the references of its [var] and [ref] elements
    (httpolice/notice.py:98-115), each once, and whether it has an [exception]
    element (118-121).  Its texts are left out. *)
From Coq Require Import String.
From Verif Require Import Base.
Open Scope nat_scope.
Open Scope list_scope.
Unset Strict Implicit.

(** httpolice/notice.py:27-41; [Severity] is ordered (httpolice/util/ordered_enum.py). *)
Inductive severity := Debug | Comment | Error.
Definition severity_rank (x : severity) : nat := match x with Debug => 0 | Comment => 1 | Error => 2 end.
Definition severity_le (a b : severity) : bool := Nat.leb (severity_rank a) (severity_rank b).

Record entry := Notice { c_id : N; c_severity : severity; c_refs : list (list string); c_exception : bool }.

Local Open Scope string_scope.
Local Open Scope list_scope.
(** httpolice/notices.xml:25-2272 *)
Definition catalogue : list entry := [
  Notice 1000 Error [["place"]] true;
  Notice 1001 Error [] false;
  Notice 1002 Error [] false;
  Notice 1003 Debug [["coding"]] false;
  Notice 1004 Error [["msg"; "headers"; "content_length"; "value"]; ["error"; "name"]] false;
  Notice 1005 Error [] true;
  Notice 1006 Error [] true;
  Notice 1007 Debug [["offset"]; ["stream"; "name"]] false;
  Notice 1008 Error [["stream"; "name"]] false;
  Notice 1009 Error [] true;
  Notice 1010 Debug [["offset"]; ["stream"; "name"]] false;
  Notice 1011 Debug [] false;
  Notice 1012 Debug [["msg"; "status"]] false;
  Notice 1013 Error [["header"]; ["entries"]] false;
  Notice 1014 Comment [["place"]; ["num"]] false;
  Notice 1015 Error [["place"]] false;
  Notice 1016 Error [] false;
  Notice 1017 Comment [["place"]; ["char"]] false;
  Notice 1018 Error [["msg"; "status"]] false;
  Notice 1019 Error [["msg"; "status"]] false;
  Notice 1020 Error [] false;
  Notice 1021 Comment [["msg"; "method"]] false;
  Notice 1022 Comment [["msg"; "method"]] false;
  Notice 1023 Error [["msg"; "status"]] false;
  Notice 1024 Error [["msg"; "status"]] false;
  Notice 1025 Comment [] false;
  Notice 1026 Error [["entry"]] false;
  Notice 1027 Error [["coding"]] true;
  Notice 1028 Error [] false;
  Notice 1029 Error [] false;
  Notice 1030 Comment [["header"]] false;
  Notice 1031 Error [] false;
  Notice 1032 Comment [] false;
  Notice 1033 Error [["msg"; "status"]; ["msg"; "request"; "version"]; ["msg"; "request"; "headers"; "host"]] false;
  Notice 1034 Error [["header"]] false;
  Notice 1035 Comment [["msg"; "headers"; "content_type"; "value"]] false;
  Notice 1036 Debug [["coding"]] false;
  Notice 1037 Error [["coding"]] true;
  Notice 1038 Error [["msg"; "displayable_body"]] true;
  Notice 1039 Error [["msg"; "displayable_body"]] true;
  Notice 1040 Error [["char"]; ["msg"; "displayable_body"]] false;
  Notice 1041 Comment [["msg"; "displayable_body"]] false;
  Notice 1042 Comment [["param"]] false;
  Notice 1045 Error [["msg"; "target"]] true;
  Notice 1046 Error [] false;
  Notice 1047 Comment [] false;
  Notice 1048 Error [] false;
  Notice 1049 Error [["msg"; "status"]; ["msg"; "headers"; "upgrade"]; ["msg"; "request"; "headers"; "upgrade"]] false;
  Notice 1050 Error [] false;
  Notice 1051 Error [["msg"; "request"; "version"]] false;
  Notice 1052 Error [["header"]; ["msg"; "status"]] false;
  Notice 1053 Comment [["header"]] false;
  Notice 1054 Error [["msg"; "headers"; "transfer_encoding"]] false;
  Notice 1055 Comment [["msg"; "status"]; ["msg"; "request"; "method"]] false;
  Notice 1056 Comment [["msg"; "displayable_body"]] false;
  Notice 1057 Comment [] false;
  Notice 1058 Error [["msg"; "status"]; ["msg"; "request"; "headers"; "content_range"]] false;
  Notice 1059 Comment [["msg"; "displayable_body"]] false;
  Notice 1060 Error [["msg"; "status"]] false;
  Notice 1061 Comment [["msg"; "displayable_body"]] false;
  Notice 1062 Error [] false;
  Notice 1063 Error [["header"]] false;
  Notice 1064 Error [["header"]] false;
  Notice 1066 Error [] false;
  Notice 1067 Comment [["msg"; "method"]] false;
  Notice 1068 Error [] false;
  Notice 1070 Comment [] false;
  Notice 1071 Error [["msg"; "status"]; ["msg"; "request"; "version"]] false;
  Notice 1072 Error [["msg"; "request"; "method"]] false;
  Notice 1073 Comment [] false;
  Notice 1074 Error [["msg"; "request"; "method"]] false;
  Notice 1076 Error [["msg"; "displayable_body"]] false;
  Notice 1077 Comment [] false;
  Notice 1078 Comment [] false;
  Notice 1079 Comment [] false;
  Notice 1080 Error [] false;
  Notice 1081 Comment [] false;
  Notice 1082 Error [] false;
  Notice 1083 Error [] false;
  Notice 1084 Comment [] false;
  Notice 1085 Error [["msg"; "status"]; ["msg"; "request"; "target"]] false;
  Notice 1086 Error [["msg"; "status"]; ["msg"; "request"; "target"]] false;
  Notice 1087 Comment [["msg"; "status"]] false;
  Notice 1088 Error [] false;
  Notice 1089 Error [] false;
  Notice 1090 Error [] false;
  Notice 1092 Comment [] false;
  Notice 1093 Comment [["library"]] false;
  Notice 1094 Comment [] false;
  Notice 1095 Error [["msg"; "request"; "method"]] false;
  Notice 1096 Comment [] false;
  Notice 1097 Error [["msg"; "request"; "headers"; "content_length"; "value"]; ["msg"; "request"; "headers"; "content_length"]] false;
  Notice 1098 Error [] false;
  Notice 1099 Error [] false;
  Notice 1100 Error [] false;
  Notice 1101 Error [] false;
  Notice 1102 Error [["protocol"]; ["msg"; "headers"; "upgrade"]; ["msg"; "request"; "headers"; "upgrade"]] false;
  Notice 1103 Error [["protocol"]; ["msg"; "request"; "headers"; "upgrade"]] false;
  Notice 1104 Comment [["msg"; "status"]] false;
  Notice 1105 Error [["msg"; "request"; "version"]; ["msg"; "version"]] false;
  Notice 1106 Comment [] false;
  Notice 1107 Error [["place"]] false;
  Notice 1108 Error [["place"]; ["date"]; ["claimed"]; ["actual"]] false;
  Notice 1109 Error [] false;
  Notice 1110 Comment [["msg"; "status"]] false;
  Notice 1111 Error [] false;
  Notice 1112 Comment [["msg"; "status"]] false;
  Notice 1113 Comment [["msg"; "status"]] false;
  Notice 1114 Error [["msg"; "request"; "method"]] false;
  Notice 1115 Error [["msg"; "request"; "method"]; ["msg"; "status"]] false;
  Notice 1116 Error [["coding"]] false;
  Notice 1117 Comment [["msg"; "request"; "headers"; "accept_language"]] false;
  Notice 1118 Error [] false;
  Notice 1119 Comment [["place"]] false;
  Notice 1120 Error [] false;
  Notice 1121 Error [["msg"; "status"]; ["msg"; "request"; "method"]; ["msg"; "request"; "headers"; "if_none_match"]] false;
  Notice 1122 Error [["msg"; "method"]] false;
  Notice 1123 Comment [["msg"; "status"]; ["msg"; "request"; "method"]; ["msg"; "request"; "headers"; "if_modified_since"]] false;
  Notice 1124 Error [["msg"; "request"; "method"]] false;
  Notice 1125 Error [["msg"; "status"]] false;
  Notice 1127 Comment [["header"]] false;
  Notice 1128 Error [["msg"; "request"; "method"]; ["msg"; "request"; "headers"; "if_modified_since"]] false;
  Notice 1129 Error [["msg"; "request"; "method"]] false;
  Notice 1130 Error [["header"]; ["msg"; "method"]] false;
  Notice 1131 Comment [["header"]] false;
  Notice 1132 Error [["msg"; "method"]] false;
  Notice 1133 Error [["place"]] false;
  Notice 1134 Error [] false;
  Notice 1135 Error [] false;
  Notice 1136 Error [] false;
  Notice 1137 Error [["msg"; "request"; "method"]; ["msg"; "request"; "headers"; "range"]] false;
  Notice 1138 Error [] false;
  Notice 1139 Error [] false;
  Notice 1140 Error [["msg"; "displayable_body"]] false;
  Notice 1141 Error [["part_num"]; ["msg"; "displayable_body"]; ["msg"; "headers"; "content_type"]] false;
  Notice 1142 Comment [["part_num"]; ["msg"; "displayable_body"]; ["msg"; "headers"; "content_type"]] false;
  Notice 1143 Error [["msg"; "headers"; "content_type"]] false;
  Notice 1144 Error [["msg"; "request"; "headers"; "range"]; ["msg"; "headers"; "content_type"]] false;
  Notice 1145 Error [["msg"; "request"; "headers"; "if_range"]] false;
  Notice 1146 Comment [["header"]; ["msg"; "request"; "headers"; "if_range"]] false;
  Notice 1147 Error [["msg"; "status"]] false;
  Notice 1148 Error [["place"]] false;
  Notice 1149 Error [] false;
  Notice 1150 Comment [["msg"; "request"; "headers"; "range"]] false;
  Notice 1151 Error [["place"]] false;
  Notice 1152 Error [["directive"]] false;
  Notice 1153 Error [["directive"]] false;
  Notice 1154 Comment [["directive"]] false;
  Notice 1155 Comment [["directive"]] false;
  Notice 1156 Error [["entry"]; ["name"]] false;
  Notice 1157 Error [["entry"]; ["name"]] false;
  Notice 1158 Error [["place"]; ["name"]; ["value"]] true;
  Notice 1159 Error [] false;
  Notice 1160 Comment [["pragma"]] false;
  Notice 1161 Comment [] false;
  Notice 1162 Comment [] false;
  Notice 1163 Error [["code"]] false;
  Notice 1164 Error [["code"]] false;
  Notice 1165 Error [["code"]] false;
  Notice 1166 Error [] false;
  Notice 1167 Error [["msg"; "status"]] false;
  Notice 1168 Debug [] false;
  Notice 1169 Debug [["code"]] false;
  Notice 1170 Comment [["msg"; "headers"; "age"; "value"]; ["msg"; "request"; "headers"; "cache_control"; "max_age"]; ["msg"; "request"; "headers"; "cache_control"]] false;
  Notice 1171 Comment [["directive"]; ["msg"; "method"]] false;
  Notice 1172 Error [["msg"; "request"; "method"]] false;
  Notice 1173 Error [["msg"; "request"; "headers"; "cache_control"]] false;
  Notice 1174 Error [["msg"; "request"; "headers"; "pragma"]] false;
  Notice 1175 Error [] false;
  Notice 1176 Error [] false;
  Notice 1177 Error [["msg"; "status"]] false;
  Notice 1178 Debug [] false;
  Notice 1179 Debug [] false;
  Notice 1180 Comment [["msg"; "headers"; "age"]] false;
  Notice 1181 Error [] false;
  Notice 1182 Error [["msg"; "headers"; "cache_control"]] false;
  Notice 1183 Comment [["code"]] false;
  Notice 1184 Comment [] false;
  Notice 1185 Comment [] false;
  Notice 1186 Comment [] false;
  Notice 1187 Error [] false;
  Notice 1188 Comment [] false;
  Notice 1189 Debug [] false;
  Notice 1190 Debug [] false;
  Notice 1191 Error [] false;
  Notice 1192 Error [] false;
  Notice 1193 Error [["directive1"]; ["directive2"]] false;
  Notice 1194 Error [] false;
  Notice 1195 Error [] false;
  Notice 1196 Error [["place"]] false;
  Notice 1197 Comment [["header"]] false;
  Notice 1198 Error [["msg"; "status"]] false;
  Notice 1199 Error [["msg"; "status"]] false;
  Notice 1200 Comment [["header"]] false;
  Notice 1201 Comment [] false;
  Notice 1202 Error [["msg"; "status"]] false;
  Notice 1203 Comment [] false;
  Notice 1204 Comment [] false;
  Notice 1205 Comment [] false;
  Notice 1206 Error [["header"]] false;
  Notice 1207 Error [["header"]; ["param"]] false;
  Notice 1208 Error [["header"]; ["charset"]] false;
  Notice 1209 Error [["header"]] false;
  Notice 1210 Error [["header"]] true;
  Notice 1211 Error [["header"]] false;
  Notice 1212 Error [["header"]; ["char"]] false;
  Notice 1213 Comment [["msg"; "headers"; "content_type"; "value"]] false;
  Notice 1214 Comment [["msg"; "request"; "headers"; "content_type"; "value"]; ["msg"; "request"; "headers"; "content_type"]; ["msg"; "status"]] false;
  Notice 1215 Comment [] false;
  Notice 1216 Comment [] false;
  Notice 1217 Error [] false;
  Notice 1218 Error [] false;
  Notice 1219 Comment [] false;
  Notice 1220 Error [["directive"]; ["msg"; "headers"; "strict_transport_security"]] false;
  Notice 1221 Error [] false;
  Notice 1222 Error [["place"]; ["date"]] false;
  Notice 1223 Error [["place"]; ["time"]] false;
  Notice 1224 Error [["place"]] false;
  Notice 1225 Error [["name"]; ["place"]] false;
  Notice 1226 Comment [["place"]] false;
  Notice 1227 Comment [["patch_type"]] false;
  Notice 1228 Error [] false;
  Notice 1230 Error [] false;
  Notice 1231 Error [] false;
  Notice 1232 Error [["msg"; "headers"; "upgrade"]; ["msg"; "request"; "headers"; "http2_settings"]] false;
  Notice 1233 Error [] false;
  Notice 1234 Error [] false;
  Notice 1235 Comment [] false;
  Notice 1236 Debug [["msg"; "target"]; ["msg"; "version"]] false;
  Notice 1237 Error [] false;
  Notice 1238 Comment [["directive1"]; ["directive2"]] false;
  Notice 1239 Error [["msg"; "displayable_body"]] false;
  Notice 1240 Error [["msg"; "displayable_body"]] false;
  Notice 1241 Error [] false;
  Notice 1242 Comment [] false;
  Notice 1243 Comment [] false;
  Notice 1244 Error [["header"]; ["msg"; "version"]] false;
  Notice 1245 Error [["msg"; "version"]] false;
  Notice 1246 Error [["msg"; "version"]] false;
  Notice 1247 Error [["param"]] false;
  Notice 1248 Comment [] false;
  Notice 1249 Comment [] false;
  Notice 1250 Comment [] false;
  Notice 1251 Comment [] false;
  Notice 1252 Comment [] false;
  Notice 1253 Error [["charset"]; ["place"]] false;
  Notice 1254 Error [["charset"]; ["place"]] true;
  Notice 1256 Error [["actual"]; ["correct"]] false;
  Notice 1257 Error [["authority"]] true;
  Notice 1258 Comment [["msg"; "version"]] false;
  Notice 1260 Error [] false;
  Notice 1261 Error [] false;
  Notice 1262 Error [] false;
  Notice 1263 Error [] false;
  Notice 1264 Error [] false;
  Notice 1265 Error [["param"]] false;
  Notice 1266 Error [["param"]; ["value"]] true;
  Notice 1267 Comment [["msg"; "request"; "headers"; "authorization"]; ["msg"; "status"]; ["msg"; "headers"; "www_authenticate"]] false;
  Notice 1268 Comment [["error_code"]; ["expected_status"]; ["msg"; "status"]; ["msg"; "headers"; "www_authenticate"]] false;
  Notice 1269 Comment [["param"]] false;
  Notice 1270 Comment [["msg"; "target"]] false;
  Notice 1271 Comment [["where"]] false;
  Notice 1272 Comment [["msg"; "target"]] false;
  Notice 1273 Error [["header"]] false;
  Notice 1274 Error [["header"]; ["header"; "value"; "item"]] false;
  Notice 1275 Comment [["msg"; "displayable_body"]] false;
  Notice 1276 Comment [["header"]; ["wildcard"]; ["value"]] false;
  Notice 1277 Comment [["headers"]] false;
  Notice 1278 Comment [["path"]] false;
  Notice 1279 Error [["path1"]; ["path2"]] false;
  Notice 1280 Comment [["header"]] false;
  Notice 1281 Error [["msg"; "guessed_charset"]; ["msg"; "headers"; "content_type"]; ["msg"; "displayable_body"]] false;
  Notice 1282 Error [["bad"]; ["place"]; ["good"]] false;
  Notice 1283 Comment [["msg"; "request"; "method"]] false;
  Notice 1284 Comment [] false;
  Notice 1285 Comment [["name"]] false;
  Notice 1286 Error [["name"]; ["value"]; ["msg"; "request"; "headers"; "prefer"]] false;
  Notice 1287 Error [["msg"; "method"]] false;
  Notice 1288 Error [] false;
  Notice 1289 Error [] false;
  Notice 1290 Error [] false;
  Notice 1291 Comment [["msg"; "request"; "headers"; "prefer"]] false;
  Notice 1292 Error [["msg"; "method"]] true;
  Notice 1293 Error [["header"]] true;
  Notice 1294 Error [["msg"; "status"]] true;
  Notice 1295 Error [["msg"; "method"]; ["uppercase"]] false;
  Notice 1296 Error [["param"]; ["entry"]] false;
  Notice 1297 Comment [["entry"]; ["n_elements"]] false;
  Notice 1298 Debug [["place"]; ["size"]; ["max_size"]] false;
  Notice 1299 Comment [["entry"]] false;
  Notice 1300 Comment [["entry"]] false;
  Notice 1301 Comment [] false;
  Notice 1302 Comment [] false;
  Notice 1303 Comment [] false;
  Notice 1304 Error [["msg"; "status"]; ["previous"; "status"]] false;
  Notice 1305 Error [["msg"; "request"; "headers"; "expect"]] false;
  Notice 1306 Error [["msg"; "request"; "version"]] false;
  Notice 1307 Comment [["place"]] false;
  Notice 1308 Comment [["place"]] false;
  Notice 1309 Error [["place"]] false;
  Notice 1310 Error [] false].
