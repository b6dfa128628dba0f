(** What every check can report: notices and the keys of their contexts.  The
    tables are made from ChecksMessage.v, ChecksRequest.v and ChecksResponse.v
    by a script, and proved to be right. *)
From Coq Require Import ZifyBool ZifyNat ZifyN String.
From Verif Require Import Base Earley Grammar Syntax Actions Nested P_Types Text Structure Known Tables Header Values Notices ChecksBase ChecksLogic ChecksMessage ChecksRequest ChecksResponse.
Open Scope nat_scope.
Open Scope list_scope.
Unset Strict Implicit.
Local Open Scope string_scope.
Local Open Scope list_scope.

(** ** Deciding *)
Definition table : Type := list (N * list string).
Definition carriesb (t : table) (id : N) (keys : list str) : bool :=
  existsb (fun e => N.eqb (fst e) id && forallb (fun k => existsb (str_eqb (s k)) keys) (snd e)) t.
Lemma carriesb_ok {A} t (id : N) (ctx : list (str * A)) : carriesb t id (map fst ctx) = true -> carries t (id, ctx).
Proof.
  unfold carriesb. intro H. apply existsb_exists in H. destruct H as [[i keys] [I H]]. cbn [fst snd] in H. apply andb_true_iff in H. destruct H as [H1 H2].
  apply N.eqb_eq in H1. subst i. exists keys. split; [exact I|]. intros k K. pose proof (proj1 (forallb_forall _ _) H2 k K) as Q. apply existsb_exists in Q.
  destruct Q as [x [X Y]]. apply str_eqb_eq in Y. now subst x.
Qed.
Definition same_entry (a b : N * list string) : bool := N.eqb (fst a) (fst b) && (if list_eq_dec string_dec (snd a) (snd b) then true else false).
Definition inclb (t t' : table) : bool := forallb (fun e => existsb (same_entry e) t') t.
Lemma inclb_ok t t' : inclb t t' = true -> incl t t'.
Proof.
  intros H e I. pose proof (proj1 (forallb_forall _ _) H e I) as Q. apply existsb_exists in Q. destruct Q as [e' [J Q]]. unfold same_entry in Q.
  apply andb_true_iff in Q. destruct Q as [Q1 Q2]. apply N.eqb_eq in Q1. destruct (list_eq_dec string_dec (snd e) (snd e')) as [Q3|]; [|discriminate Q2].
  destruct e, e'; cbn [fst snd] in *. now subst.
Qed.

(** ** Tables *)
Definition t_decode_all : table := [(1037%N, ["coding"; "error"]); (1036%N, ["coding"])].
Definition t_decoded_body : table := [(1037%N, ["coding"; "error"]); (1036%N, ["coding"])].
Definition t_guessed_charset : table := [(1037%N, ["coding"; "error"]); (1036%N, ["coding"])].
Definition t_unicode_body : table := [(1037%N, ["coding"; "error"]); (1036%N, ["coding"])].
Definition t_content_is_full : table := [].
Definition t_json_data : table := [(1281%N, []); (1038%N, ["error"]); (1037%N, ["coding"; "error"]); (1036%N, ["coding"])].
Definition t_xml_data : table := [(1275%N, []); (1039%N, ["error"]); (1037%N, ["coding"; "error"]); (1036%N, ["coding"])].
Definition t_multipart_data : table := [(1139%N, []); (1140%N, []); (1037%N, ["coding"; "error"]); (1036%N, ["coding"])].
Definition t_url_encoded_data : table := [(1040%N, ["char"]); (1037%N, ["coding"; "error"]); (1036%N, ["coding"])].
Definition t_displayable_body : table := [(1037%N, ["coding"; "error"]); (1036%N, ["coding"]); (1281%N, []); (1038%N, ["error"])].
Definition t_transformed_by_proxy : table := [(1190%N, []); (1189%N, [])].
Definition t_check_each_header : table := [(1197%N, ["header"]); (1277%N, ["headers"]); (1293%N, ["error"; "header"; "place"])].
Definition t_check_payload : table := [(1037%N, ["coding"; "error"]); (1036%N, ["coding"]); (1281%N, []); (1038%N, ["error"]); (1275%N, []); (1039%N, ["error"]); (1139%N, []); (1140%N, []); (1040%N, ["char"])].
Definition t_check_trailer_chunked : table := [(1054%N, [])].
Definition t_check_trailers : table := [(1030%N, ["header"])].
Definition t_check_te_and_cl : table := [(1020%N, [])].
Definition t_check_connection : table := [(1034%N, ["header"])].
Definition t_check_media_type : table := [(1035%N, []); (1042%N, ["param"])].
Definition t_check_json_charset : table := [(1280%N, ["header"])].
Definition t_check_future_date : table := [(1109%N, [])].
Definition t_check_warnings : table := [(1163%N, ["code"]); (1164%N, ["code"])].
Definition t_check_pragma : table := [(1160%N, ["pragma"])].
Definition t_check_upgrade_tokens : table := [(1228%N, []); (1233%N, [])].
Definition t_check_upgrade_option : table := [(1050%N, [])].
Definition t_check_transformed : table := [(1191%N, []); (1192%N, []); (1190%N, []); (1189%N, [])].
Definition t_check_http2_headers : table := [(1244%N, ["header"]); (1245%N, [])].
Definition t_target_form : table := [(1045%N, ["error"; "place"])].
Definition t_effective_uri : table := [(1045%N, ["error"; "place"])].
Definition t_is_to_proxy : table := [(1236%N, []); (1045%N, ["error"; "place"])].
Definition t_query_params : table := [(1045%N, ["error"; "place"])].
Definition t_has_body : table := [].
Definition t_check_request_line : table := [(1292%N, ["error"; "place"]); (1045%N, ["error"; "place"])].
Definition t_check_uppercase : table := [(1295%N, ["uppercase"])].
Definition t_check_untyped_body : table := [(1041%N, [])].
Definition t_check_length_needed : table := [(1021%N, [])].
Definition t_check_length_useless : table := [(1022%N, [])].
Definition t_check_te_chunked : table := [(1028%N, [])].
Definition t_check_te_http2 : table := [(1244%N, ["header"])].
Definition t_check_te_connection : table := [(1029%N, [])].
Definition t_check_host_missing : table := [(1031%N, [])].
Definition t_check_host_first : table := [(1032%N, [])].
Definition t_check_request_headers : table := [(1063%N, ["header"]); (1053%N, ["header"])].
Definition t_check_unexpected_body : table := [(1056%N, []); (1057%N, []); (1059%N, []); (1061%N, [])].
Definition t_check_options_body : table := [(1062%N, [])].
Definition t_check_expect : table := [(1066%N, [])].
Definition t_check_max_forwards : table := [(1067%N, [])].
Definition t_check_referer : table := [(1068%N, [])].
Definition t_check_user_agent : table := [(1070%N, []); (1093%N, ["library"])].
Definition t_check_accept_encoding : table := [(1116%N, ["coding"])].
Definition t_check_if_match : table := [(1120%N, [])].
Definition t_check_head_preconditions : table := [(1131%N, ["header"])].
Definition t_check_preconditions : table := [(1130%N, ["header"]); (1122%N, [])].
Definition t_check_range : table := [(1132%N, [])].
Definition t_check_if_range : table := [(1134%N, [])].
Definition t_check_if_range_weak : table := [(1135%N, [])].
Definition t_check_cache_directives : table := [(1152%N, ["directive"]); (1159%N, ["directive"])].
Definition t_check_no_cache_pragma : table := [(1161%N, [])].
Definition t_check_request_warnings : table := [(1165%N, ["code"])].
Definition t_check_uncacheable_method : table := [(1171%N, ["directive"])].
Definition t_check_directive_pairs : table := [(1193%N, ["directive1"; "directive2"])].
Definition t_check_basic_auth : table := [(1210%N, ["header"; "error"]); (1211%N, ["header"]); (1212%N, ["header"; "char"]); (1209%N, ["header"])].
Definition t_check_bearer_auth : table := [(1261%N, ["header"]); (1262%N, ["header"])].
Definition t_check_authorization : table := [(1274%N, ["header"]); (1210%N, ["header"; "error"]); (1211%N, ["header"]); (1212%N, ["header"; "char"]); (1209%N, ["header"]); (1261%N, ["header"]); (1262%N, ["header"])].
Definition t_check_patch : table := [(1213%N, [])].
Definition t_check_h2c : table := [(1233%N, []); (1231%N, [])].
Definition t_check_settings_option : table := [(1230%N, [])].
Definition t_check_settings : table := [(1234%N, [])].
Definition t_check_token_in_uri : table := [(1270%N, []); (1271%N, ["where"]); (1272%N, []); (1045%N, ["error"; "place"])].
Definition t_check_token_in_body : table := [(1271%N, ["where"]); (1040%N, ["char"]); (1037%N, ["coding"; "error"]); (1036%N, ["coding"]); (1281%N, []); (1038%N, ["error"])].
Definition t_check_subsumptions : table := [(1276%N, ["header"; "wildcard"; "value"])].
Definition t_check_duplicate_preferences : table := [(1285%N, ["name"])].
Definition t_check_respond_async : table := [(1287%N, [])].
Definition t_check_return_minimal : table := [(1288%N, [])].
Definition t_check_return_both : table := [(1289%N, [])].
Definition t_check_handling_both : table := [(1290%N, [])].
Definition t_from_cache_date : table := [(1241%N, [])].
Definition tq_from_cache_date : table := [].
Definition t_first_cache_warning : table := [(1169%N, ["code"])].
Definition tq_first_cache_warning : table := [].
Definition t_from_cache : table := [(1168%N, []); (1241%N, []); (1169%N, ["code"])].
Definition tq_from_cache : table := [].
Definition t_heuristic_expiration : table := [(1179%N, []); (1178%N, []); (1168%N, []); (1241%N, []); (1169%N, ["code"])].
Definition tq_heuristic_expiration : table := [].
Definition t_stale : table := [(1184%N, []); (1185%N, []); (1183%N, ["code"])].
Definition tq_stale : table := [].
Definition t_delimited_by_close : table := [(1025%N, [])].
Definition tq_delimited_by_close : table := [].
Definition t_check_reason : table := [(1294%N, ["error"; "place"])].
Definition tq_check_reason : table := [].
Definition t_check_status_range : table := [(1167%N, [])].
Definition tq_check_status_range : table := [].
Definition t_check_close_option : table := [(1047%N, []); (1025%N, [])].
Definition tq_check_close_option : table := [].
Definition t_check_response_headers : table := [(1064%N, ["header"])].
Definition tq_check_response_headers : table := [].
Definition t_check_switching : table := [(1048%N, []); (1246%N, [])].
Definition tq_check_switching : table := [].
Definition t_check_no_content_body : table := [(1240%N, [])].
Definition tq_check_no_content_body : table := [].
Definition t_check_reset_content_body : table := [(1076%N, [])].
Definition tq_check_reset_content_body : table := [].
Definition t_check_location_missing : table := [(1078%N, []); (1079%N, []); (1080%N, []); (1084%N, []); (1205%N, [])].
Definition tq_check_location_missing : table := [].
Definition t_check_odd_status : table := [(1082%N, []); (1083%N, []); (1088%N, [])].
Definition tq_check_odd_status : table := [].
Definition t_check_allow_missing : table := [(1089%N, [])].
Definition tq_check_allow_missing : table := [].
Definition t_check_timeout_close : table := [(1094%N, [])].
Definition tq_check_timeout_close : table := [].
Definition t_check_date_missing : table := [(1110%N, [])].
Definition tq_check_date_missing : table := [].
Definition t_check_created_fragment : table := [(1111%N, [])].
Definition tq_check_created_fragment : table := [].
Definition t_check_last_modified : table := [(1118%N, [])].
Definition tq_check_last_modified : table := [].
Definition t_check_304_headers : table := [(1127%N, ["header"])].
Definition tq_check_304_headers : table := [].
Definition t_check_byteranges : table := [(1141%N, ["part_num"]); (1142%N, ["part_num"]); (1139%N, []); (1140%N, []); (1037%N, ["coding"; "error"]); (1036%N, ["coding"])].
Definition tq_check_byteranges : table := [].
Definition t_check_partial_content : table := [(1143%N, []); (1138%N, []); (1141%N, ["part_num"]); (1142%N, ["part_num"]); (1139%N, []); (1140%N, []); (1037%N, ["coding"; "error"]); (1036%N, ["coding"])].
Definition tq_check_partial_content : table := [].
Definition t_check_response_directives : table := [(1153%N, ["directive"])].
Definition tq_check_response_directives : table := [].
Definition t_check_pragma_no_cache : table := [(1162%N, [])].
Definition tq_check_pragma_no_cache : table := [].
Definition t_check_blocked_by : table := [(1243%N, [])].
Definition tq_check_blocked_by : table := [].
Definition t_check_filename : table := [(1248%N, []); (1249%N, []); (1250%N, [])].
Definition tq_check_filename : table := [].
Definition t_check_filename_order : table := [(1252%N, [])].
Definition tq_check_filename_order : table := [].
Definition t_check_disposition : table := [(1247%N, ["param"]); (1251%N, []); (1248%N, []); (1249%N, []); (1250%N, []); (1252%N, [])].
Definition tq_check_disposition : table := [].
Definition t_check_alt_svc : table := [(1258%N, []); (1260%N, [])].
Definition tq_check_alt_svc : table := [].
Definition t_check_sts : table := [(1218%N, []); (1219%N, []); (1220%N, ["directive"])].
Definition tq_check_sts : table := [].
Definition t_check_accept_patch : table := [(1227%N, ["patch_type"])].
Definition tq_check_accept_patch : table := [].
Definition t_check_response_pairs : table := [(1193%N, ["directive1"; "directive2"])].
Definition tq_check_response_pairs : table := [].
Definition t_check_overridden : table := [(1238%N, ["directive1"; "directive2"])].
Definition tq_check_overridden : table := [].
Definition t_check_vary_host : table := [(1235%N, [])].
Definition tq_check_vary_host : table := [].
Definition t_check_challenge_missing : table := [(1194%N, [])].
Definition tq_check_challenge_missing : table := [].
Definition t_check_proxy_challenge_missing : table := [(1195%N, [])].
Definition tq_check_proxy_challenge_missing : table := [].
Definition t_check_basic_challenge : table := [(1273%N, ["header"]); (1206%N, ["header"]); (1208%N, ["header"; "charset"]); (1207%N, ["header"; "param"])].
Definition tq_check_basic_challenge : table := [].
Definition t_bearer_in_header : table := [].
Definition t_request_has_token : table := [(1040%N, ["char"]); (1037%N, ["coding"; "error"]); (1036%N, ["coding"]); (1045%N, ["error"; "place"])].
Definition t_check_bearer_params : table := [(1265%N, ["param"]); (1267%N, []); (1268%N, ["error_code"; "expected_status"]); (1269%N, ["param"]); (1266%N, ["error"; "param"; "value"])].
Definition tq_check_bearer_params : table := [].
Definition t_check_bearer_challenge : table := [(1263%N, []); (1264%N, []); (1265%N, ["param"]); (1267%N, []); (1268%N, ["error_code"; "expected_status"]); (1269%N, ["param"]); (1266%N, ["error"; "param"; "value"])].
Definition tq_check_bearer_challenge : table := [(1040%N, ["char"]); (1037%N, ["coding"; "error"]); (1036%N, ["coding"]); (1045%N, ["error"; "place"])].
Definition t_check_challenges : table := [(1273%N, ["header"]); (1206%N, ["header"]); (1208%N, ["header"; "charset"]); (1207%N, ["header"; "param"]); (1263%N, []); (1264%N, []); (1265%N, ["param"]); (1267%N, []); (1268%N, ["error_code"; "expected_status"]); (1269%N, ["param"]); (1266%N, ["error"; "param"; "value"])].
Definition tq_check_challenges : table := [(1040%N, ["char"]); (1037%N, ["coding"; "error"]); (1036%N, ["coding"]); (1045%N, ["error"; "place"])].
Definition t_check_no_body_status : table := [(1018%N, []); (1023%N, [])].
Definition tq_check_no_body_status : table := [].
Definition t_check_informational_close : table := [(1198%N, [])].
Definition tq_check_informational_close : table := [].
Definition t_check_informational_metadata : table := [(1052%N, ["header"])].
Definition tq_check_informational_metadata : table := [].
Definition t_check_location_useless : table := [(1112%N, [])].
Definition tq_check_location_useless : table := [].
Definition t_check_retry_after : table := [(1113%N, [])].
Definition tq_check_retry_after : table := [].
Definition t_check_content_range : table := [(1147%N, [])].
Definition tq_check_content_range : table := [].
Definition t_check_from_cache : table := [(1166%N, []); (1175%N, []); (1176%N, []); (1202%N, []); (1177%N, []); (1168%N, []); (1241%N, []); (1169%N, ["code"])].
Definition tq_check_from_cache : table := [].
Definition t_check_heuristic : table := [(1180%N, []); (1181%N, []); (1182%N, []); (1179%N, []); (1178%N, []); (1168%N, []); (1241%N, []); (1169%N, ["code"])].
Definition tq_check_heuristic : table := [].
Definition t_check_stale : table := [(1186%N, []); (1187%N, []); (1184%N, []); (1185%N, []); (1183%N, ["code"])].
Definition tq_check_stale : table := [].
Definition t_check_immutable : table := [(1301%N, []); (1302%N, []); (1303%N, []); (1025%N, [])].
Definition tq_check_immutable : table := [].
Definition t_check_allow : table := [(1217%N, []); (1310%N, [])].
Definition tq_check_allow : table := [].
Definition t_check_via_missing : table := [(1046%N, []); (1190%N, []); (1189%N, [])].
Definition tq_check_via_missing : table := [].
Definition t_check_untyped : table := [(1041%N, [])].
Definition tq_check_untyped : table := [].
Definition t_check_connect : table := [(1019%N, []); (1024%N, []); (1199%N, [])].
Definition tq_check_connect : table := [].
Definition t_check_head_body : table := [(1239%N, [])].
Definition tq_check_head_body : table := [].
Definition t_check_te_to_http10 : table := [(1306%N, [])].
Definition tq_check_te_to_http10 : table := [].
Definition t_check_bad_host : table := [(1033%N, [])].
Definition tq_check_bad_host : table := [].
Definition t_check_proxy_transformed : table := [(1237%N, []); (1190%N, []); (1189%N, [])].
Definition tq_check_proxy_transformed : table := [(1236%N, []); (1045%N, ["error"; "place"])].
Definition t_check_proxy_via : table := [(1046%N, [])].
Definition tq_check_proxy_via : table := [(1236%N, []); (1045%N, ["error"; "place"])].
Definition t_check_switched : table := [(1049%N, []); (1232%N, []); (1051%N, []); (1071%N, [])].
Definition tq_check_switched : table := [].
Definition t_same_uri : table := [].
Definition tq_same_uri : table := [(1045%N, ["error"; "place"])].
Definition t_check_content_location : table := [(1055%N, []); (1060%N, [])].
Definition tq_check_content_location : table := [(1045%N, ["error"; "place"])].
Definition t_check_self_redirect : table := [(1085%N, [])].
Definition tq_check_self_redirect : table := [(1045%N, ["error"; "place"])].
Definition t_check_partial_put : table := [(1058%N, [])].
Definition tq_check_partial_put : table := [].
Definition t_check_safe_method : table := [(1072%N, []); (1074%N, []); (1095%N, [])].
Definition tq_check_safe_method : table := [].
Definition t_check_created_location : table := [(1073%N, [])].
Definition tq_check_created_location : table := [].
Definition t_check_empty_body : table := [(1284%N, []); (1077%N, []); (1081%N, []); (1092%N, []); (1096%N, []); (1201%N, []); (1203%N, []); (1242%N, []); (1087%N, []); (1106%N, []); (1204%N, []); (1104%N, [])].
Definition tq_check_empty_body : table := [].
Definition t_check_asterisk_redirect : table := [(1086%N, [])].
Definition tq_check_asterisk_redirect : table := [(1045%N, ["error"; "place"])].
Definition t_check_not_acceptable : table := [(1090%N, []); (1117%N, [])].
Definition tq_check_not_acceptable : table := [].
Definition t_check_length_required : table := [(1097%N, [])].
Definition tq_check_length_required : table := [].
Definition t_check_no_request_body : table := [(1098%N, []); (1099%N, [])].
Definition tq_check_no_request_body : table := [].
Definition t_check_expectation : table := [(1100%N, [])].
Definition tq_check_expectation : table := [].
Definition t_first_common : table := [(1102%N, ["protocol"]); (1103%N, ["protocol"])].
Definition tq_first_common : table := [].
Definition t_check_common_upgrade : table := [(1102%N, ["protocol"]); (1103%N, ["protocol"])].
Definition tq_check_common_upgrade : table := [].
Definition t_check_upgrade_required : table := [(1101%N, [])].
Definition tq_check_upgrade_required : table := [].
Definition t_check_version_refused : table := [(1105%N, [])].
Definition tq_check_version_refused : table := [].
Definition t_check_allowed : table := [(1114%N, []); (1115%N, [])].
Definition tq_check_allowed : table := [].
Definition t_check_not_modified_needed : table := [(1121%N, []); (1123%N, [])].
Definition tq_check_not_modified_needed : table := [].
Definition t_check_no_precondition : table := [(1124%N, []); (1125%N, []); (1128%N, []); (1129%N, [])].
Definition tq_check_no_precondition : table := [].
Definition t_check_partial_range : table := [(1136%N, []); (1137%N, [])].
Definition tq_check_partial_range : table := [].
Definition t_check_single_range : table := [(1144%N, [])].
Definition tq_check_single_range : table := [].
Definition t_check_if_range_tag : table := [(1145%N, [])].
Definition tq_check_if_range_tag : table := [].
Definition t_check_if_range_metadata : table := [(1146%N, ["header"])].
Definition tq_check_if_range_metadata : table := [].
Definition t_check_range_refused : table := [(1149%N, []); (1150%N, [])].
Definition tq_check_range_refused : table := [].
Definition t_check_cache_in_context : table := [(1172%N, []); (1170%N, []); (1173%N, []); (1174%N, []); (1168%N, []); (1241%N, []); (1169%N, ["code"])].
Definition tq_check_cache_in_context : table := [].
Definition t_check_stale_in_context : table := [(1188%N, []); (1184%N, []); (1185%N, []); (1183%N, ["code"])].
Definition tq_check_stale_in_context : table := [].
Definition t_check_precondition_required : table := [(1200%N, ["header"])].
Definition tq_check_precondition_required : table := [].
Definition t_check_patch_response : table := [(1214%N, []); (1215%N, [])].
Definition tq_check_patch_response : table := [].
Definition t_check_sts_over_http : table := [(1221%N, [])].
Definition tq_check_sts_over_http : table := [].
Definition t_check_misdirected : table := [(1283%N, [])].
Definition tq_check_misdirected : table := [].
Definition t_check_applied : table := [(1286%N, ["name"; "value"])].
Definition tq_check_applied : table := [].
Definition t_check_options_patch : table := [(1216%N, [])].
Definition tq_check_options_patch : table := [].
Definition t_check_vary_prefer : table := [(1291%N, [])].
Definition tq_check_vary_prefer : table := [].

(** ** Proofs *)
Section Says.
Variable E : env.
Variable P : event -> Prop.
Hypothesis http : parses_http (e_read E).

Definition allows (w : who) (t : table) : Prop := forall id ctx, carries t (id, ctx) -> P (Said w id ctx).
(** May the headers of a message be read? *)
Definition reads (w : who) (m : msg) : Prop :=
  forall name c n, class_of name = Some c -> In n (v_notices (parse_view (e_read E) c (m_entries m) name)) -> P (lift w n).
(** May headers of a message be looked at, and the notices of a table be
    reported on it? *)
Definition hears (w : who) (m : msg) (t : table) : Prop := reads w m /\ allows w t.
Lemma hears_incl w m t t' : hears w m t -> inclb t' t = true -> hears w m t'.
Proof. intros [H K] I. split; [exact H|]. intros id ctx C. apply K. eapply carries_incl; [apply inclb_ok; exact I|exact C]. Qed.
Lemma hears_say w m t id ctx : hears w m t -> carriesb t id (map fst ctx) = true -> P (Said w id ctx).
Proof. intros [_ H] C. apply H, carriesb_ok, C. Qed.

Lemma lift_carries w n : carries header_notices n -> carries header_notices (fst n, map (fun kv => (fst kv, lift_arg w (snd kv))) (snd n)).
Proof. intros [keys [I K]]. exists keys. split; [exact I|]. intros k J. cbn [snd]. rewrite map_map. cbn [fst]. exact (K k J). Qed.
(** Every notice of a header is one of those in a table. *)
Lemma hears_all w m t : allows w header_notices -> allows w t -> hears w m t.
Proof.
  intros H K. split; [|exact K]. intros name c n _ I. apply H, lift_carries.
  pose proof (view_ok http c (m_entries m) name) as Q. rewrite Forall_forall in Q. exact (Q _ I).
Qed.
Lemma view_says j name t : hears (j_who j) (j_msg j) t -> emits E P (view j name).
Proof.
  intros [H _]. unfold view, emits. destruct (class_of name) as [c|] eqn:C; [|constructor]. destruct (has_bad _); [constructor|]. cbn [fst].
  apply Forall_forall. intros e I. apply in_map_iff in I. destruct I as [n [<- I]]. exact (H name c n C I).
Qed.
Lemma parse_text_says j x text fail extra : silent x = true -> P (Said (j_who j) fail ((s "error", CError) :: extra)) -> emits E P (parse_text j x text fail extra).
Proof.
  intros S H. unfold parse_text. apply emits_bind; [apply emits_ask|]. intros r R. unfold ask in R. cbn [snd] in R.
  assert (Q : r = if latin1 text then e_read E x text else None) by congruence. clear R.
  destruct r as [[v cs]|].
  - assert (cs = []) by (destruct (latin1 text); [|discriminate Q]; eapply silent_reads; [exact http|exact S|symmetry; exact Q]). subst cs.
    apply emits_bind; [constructor|]. intros. apply emits_ret.
  - apply emits_bind; [apply emits_complain; exact H|]. intros. apply emits_ret.
Qed.
Lemma silent_ok : forallb silent [field_name; Syntax.method; normal_target; options_target; connect_target; reason_phrase; scope; error; error_description; error_uri] = true.
Proof. vm_compute. reflexivity. Qed.
Lemma error_silent : forallb (fun x => silent (snd x)) error_symbols = true.
Proof. vm_compute. reflexivity. Qed.
Ltac is_silent := first [
  match goal with H : In _ error_symbols |- _ => exact (proj1 (forallb_forall _ _) error_silent _ H) end|apply (proj1 (forallb_forall _ _) silent_ok); cbn [In]; tauto
  |unfold target_symbol; repeat match goal with |- context [if ?b then _ else _] => destruct b end; apply (proj1 (forallb_forall _ _) silent_ok); cbn [In]; tauto].

Ltac heard := cbn [j_who j_msg of_request of_response];
  first [eassumption
        |match goal with H : forall q, _ = Some q -> hears _ _ _ |- _ => eapply H; first [eassumption|reflexivity] end
        |eapply hears_incl; [eassumption|vm_compute; reflexivity]
        |match goal with H : forall q, _ = Some q -> hears _ _ _ |- _ => eapply hears_incl; [eapply H; first [eassumption|reflexivity]|vm_compute; reflexivity] end].
Ltac said := cbn [j_who j_msg of_request of_response];
  first [eapply hears_say; [eassumption|vm_compute; reflexivity]
        |match goal with H : forall q, _ = Some q -> hears _ _ _ |- _ => eapply hears_say; [eapply H; first [eassumption|reflexivity]|vm_compute; reflexivity] end].
Ltac asks := let q := fresh in let e := fresh in intros q e; match goal with H : forall q, _ = Some q -> hears _ _ _ |- _ => eapply hears_incl; [exact (H q e)|vm_compute; reflexivity] end.
Ltac asked := let q := fresh in let e := fresh in intros q e; injection e as <-; heard.
Create HintDb says.
Ltac call := solve [auto 2 with says nocore].
Ltac walk := repeat first [call
  |lazymatch goal with
   | |- emits _ _ (view _ _) => eapply view_says; heard
   | |- emits _ _ (parse_text _ _ _ _ _) => apply parse_text_says; [is_silent|said]
   | _ => emit_step said
   end].
Lemma decode_all_says (j : subject) (x1 : list val) (x2 : val) : hears (j_who j) (j_msg j) t_decode_all -> emits E P (decode_all j x1 x2).
Proof. intros H. revert x2. induction x1 as [|c l IH]; intro x2; cbn [decode_all]; walk; try apply IH. Qed.
Hint Extern 0 (emits _ _ (decode_all _ _ _)) => apply decode_all_says; [heard] : says.
Lemma decoded_body_says (j : subject) : hears (j_who j) (j_msg j) t_decoded_body -> emits E P (decoded_body j).
Proof. intros H. cbv beta zeta delta [decoded_body]. walk. Qed.
Hint Extern 0 (emits _ _ (decoded_body _)) => apply decoded_body_says; [heard] : says.
Lemma guessed_charset_says (j : subject) : hears (j_who j) (j_msg j) t_guessed_charset -> emits E P (guessed_charset j).
Proof. intros H. cbv beta zeta delta [guessed_charset]. walk. Qed.
Hint Extern 0 (emits _ _ (guessed_charset _)) => apply guessed_charset_says; [heard] : says.
Lemma unicode_body_says (j : subject) : hears (j_who j) (j_msg j) t_unicode_body -> emits E P (unicode_body j).
Proof. intros H. cbv beta zeta delta [unicode_body]. walk. Qed.
Hint Extern 0 (emits _ _ (unicode_body _)) => apply unicode_body_says; [heard] : says.
Lemma content_is_full_says (j : subject) : hears (j_who j) (j_msg j) t_content_is_full -> emits E P (content_is_full j).
Proof. intros H. cbv beta zeta delta [content_is_full]. walk. Qed.
Hint Extern 0 (emits _ _ (content_is_full _)) => apply content_is_full_says; [heard] : says.
Lemma json_data_says (j : subject) : hears (j_who j) (j_msg j) t_json_data -> emits E P (json_data j).
Proof. intros H. cbv beta zeta delta [json_data]. walk. Qed.
Hint Extern 0 (emits _ _ (json_data _)) => apply json_data_says; [heard] : says.
Lemma xml_data_says (j : subject) : hears (j_who j) (j_msg j) t_xml_data -> emits E P (xml_data j).
Proof. intros H. cbv beta zeta delta [xml_data]. walk. Qed.
Hint Extern 0 (emits _ _ (xml_data _)) => apply xml_data_says; [heard] : says.
Lemma multipart_data_says (j : subject) : hears (j_who j) (j_msg j) t_multipart_data -> emits E P (multipart_data j).
Proof. intros H. cbv beta zeta delta [multipart_data]. walk. Qed.
Hint Extern 0 (emits _ _ (multipart_data _)) => apply multipart_data_says; [heard] : says.
Lemma url_encoded_data_says (j : subject) : hears (j_who j) (j_msg j) t_url_encoded_data -> emits E P (url_encoded_data j).
Proof. intros H. cbv beta zeta delta [url_encoded_data]. walk. Qed.
Hint Extern 0 (emits _ _ (url_encoded_data _)) => apply url_encoded_data_says; [heard] : says.
Lemma displayable_body_says (j : subject) : hears (j_who j) (j_msg j) t_displayable_body -> emits E P (displayable_body j).
Proof. intros H. cbv beta zeta delta [displayable_body]. walk. Qed.
Hint Extern 0 (emits _ _ (displayable_body _)) => apply displayable_body_says; [heard] : says.
Lemma transformed_by_proxy_says (j : subject) : hears (j_who j) (j_msg j) t_transformed_by_proxy -> emits E P (transformed_by_proxy j).
Proof. intros H. cbv beta zeta delta [transformed_by_proxy]. walk. Qed.
Hint Extern 0 (emits _ _ (transformed_by_proxy _)) => apply transformed_by_proxy_says; [heard] : says.
Lemma check_each_header_says (j : subject) : hears (j_who j) (j_msg j) t_check_each_header -> emits E P (check_each_header j).
Proof. intros H. cbv beta zeta delta [check_each_header]. walk. Qed.
Lemma check_payload_says (j : subject) : hears (j_who j) (j_msg j) t_check_payload -> emits E P (check_payload j).
Proof. intros H. cbv beta zeta delta [check_payload]. walk. Qed.
Lemma check_trailer_chunked_says (j : subject) : hears (j_who j) (j_msg j) t_check_trailer_chunked -> emits E P (check_trailer_chunked j).
Proof. intros H. cbv beta zeta delta [check_trailer_chunked]. walk. Qed.
Lemma check_trailers_says (j : subject) : hears (j_who j) (j_msg j) t_check_trailers -> emits E P (check_trailers j).
Proof. intros H. cbv beta zeta delta [check_trailers]. walk. Qed.
Lemma check_te_and_cl_says (j : subject) : hears (j_who j) (j_msg j) t_check_te_and_cl -> emits E P (check_te_and_cl j).
Proof. intros H. cbv beta zeta delta [check_te_and_cl]. walk. Qed.
Lemma check_connection_says (j : subject) : hears (j_who j) (j_msg j) t_check_connection -> emits E P (check_connection j).
Proof. intros H. cbv beta zeta delta [check_connection]. walk. Qed.
Lemma check_media_type_says (j : subject) : hears (j_who j) (j_msg j) t_check_media_type -> emits E P (ChecksMessage.check_media_type j).
Proof. intros H. cbv beta zeta delta [ChecksMessage.check_media_type]. walk. Qed.
Lemma check_json_charset_says (j : subject) : hears (j_who j) (j_msg j) t_check_json_charset -> emits E P (check_json_charset j).
Proof. intros H. cbv beta zeta delta [check_json_charset]. walk. Qed.
Lemma check_future_date_says (j : subject) : hears (j_who j) (j_msg j) t_check_future_date -> emits E P (check_future_date j).
Proof. intros H. cbv beta zeta delta [check_future_date]. walk. Qed.
Lemma check_warnings_says (j : subject) : hears (j_who j) (j_msg j) t_check_warnings -> emits E P (check_warnings j).
Proof. intros H. cbv beta zeta delta [check_warnings]. walk. Qed.
Lemma check_pragma_says (j : subject) : hears (j_who j) (j_msg j) t_check_pragma -> emits E P (check_pragma j).
Proof. intros H. cbv beta zeta delta [check_pragma]. walk. Qed.
Lemma check_upgrade_tokens_says (j : subject) (x1 : option bool) : hears (j_who j) (j_msg j) t_check_upgrade_tokens -> emits E P (check_upgrade_tokens j x1).
Proof. intros H. cbv beta zeta delta [check_upgrade_tokens]. walk. Qed.
Lemma check_upgrade_option_says (j : subject) : hears (j_who j) (j_msg j) t_check_upgrade_option -> emits E P (check_upgrade_option j).
Proof. intros H. cbv beta zeta delta [check_upgrade_option]. walk. Qed.
Lemma check_transformed_says (j : subject) : hears (j_who j) (j_msg j) t_check_transformed -> emits E P (check_transformed j).
Proof. intros H. cbv beta zeta delta [check_transformed]. walk. Qed.
Lemma check_http2_headers_says (j : subject) : hears (j_who j) (j_msg j) t_check_http2_headers -> emits E P (check_http2_headers j).
Proof. intros H. cbv beta zeta delta [check_http2_headers]. walk. Qed.
Lemma target_form_says (q : request) : hears Req (q_msg q) t_target_form -> emits E P (target_form q).
Proof. intros H. cbv beta zeta delta [target_form]. walk. Qed.
Hint Extern 0 (emits _ _ (target_form _)) => apply target_form_says; [heard] : says.
Lemma effective_uri_says (q : request) : hears Req (q_msg q) t_effective_uri -> emits E P (effective_uri q).
Proof. intros H. cbv beta zeta delta [effective_uri]. walk. Qed.
Hint Extern 0 (emits _ _ (effective_uri _)) => apply effective_uri_says; [heard] : says.
Lemma is_to_proxy_says (q : request) : hears Req (q_msg q) t_is_to_proxy -> emits E P (is_to_proxy q).
Proof. intros H. cbv beta zeta delta [is_to_proxy]. walk. Qed.
Hint Extern 0 (emits _ _ (is_to_proxy _)) => apply is_to_proxy_says; [heard] : says.
Lemma query_params_says (q : request) : hears Req (q_msg q) t_query_params -> emits E P (query_params q).
Proof. intros H. cbv beta zeta delta [query_params]. walk. Qed.
Hint Extern 0 (emits _ _ (query_params _)) => apply query_params_says; [heard] : says.
Lemma has_body_says (q : request) : hears Req (q_msg q) t_has_body -> emits E P (has_body q).
Proof. intros H. cbv beta zeta delta [has_body]. walk. Qed.
Hint Extern 0 (emits _ _ (has_body _)) => apply has_body_says; [heard] : says.
Lemma check_request_line_says (q : request) : hears Req (q_msg q) t_check_request_line -> emits E P (check_request_line q).
Proof. intros H. cbv beta zeta delta [check_request_line]. walk. Qed.
Lemma check_uppercase_says (q : request) : hears Req (q_msg q) t_check_uppercase -> emits E P (check_uppercase q).
Proof. intros H. cbv beta zeta delta [check_uppercase]. walk. Qed.
Lemma check_untyped_body_says (q : request) : hears Req (q_msg q) t_check_untyped_body -> emits E P (check_untyped_body q).
Proof. intros H. cbv beta zeta delta [check_untyped_body]. walk. Qed.
Lemma check_length_needed_says (q : request) : hears Req (q_msg q) t_check_length_needed -> emits E P (check_length_needed q).
Proof. intros H. cbv beta zeta delta [check_length_needed]. walk. Qed.
Lemma check_length_useless_says (q : request) : hears Req (q_msg q) t_check_length_useless -> emits E P (check_length_useless q).
Proof. intros H. cbv beta zeta delta [check_length_useless]. walk. Qed.
Lemma check_te_chunked_says (q : request) : hears Req (q_msg q) t_check_te_chunked -> emits E P (check_te_chunked q).
Proof. intros H. cbv beta zeta delta [check_te_chunked]. walk. Qed.
Lemma check_te_http2_says (q : request) : hears Req (q_msg q) t_check_te_http2 -> emits E P (check_te_http2 q).
Proof. intros H. cbv beta zeta delta [check_te_http2]. walk. Qed.
Lemma check_te_connection_says (q : request) : hears Req (q_msg q) t_check_te_connection -> emits E P (check_te_connection q).
Proof. intros H. cbv beta zeta delta [check_te_connection]. walk. Qed.
Lemma check_host_missing_says (q : request) : hears Req (q_msg q) t_check_host_missing -> emits E P (check_host_missing q).
Proof. intros H. cbv beta zeta delta [check_host_missing]. walk. Qed.
Lemma check_host_first_says (q : request) : hears Req (q_msg q) t_check_host_first -> emits E P (check_host_first q).
Proof. intros H. cbv beta zeta delta [check_host_first]. walk. Qed.
Lemma check_request_headers_says (q : request) : hears Req (q_msg q) t_check_request_headers -> emits E P (check_request_headers q).
Proof. intros H. cbv beta zeta delta [check_request_headers]. walk. Qed.
Lemma check_unexpected_body_says (q : request) : hears Req (q_msg q) t_check_unexpected_body -> emits E P (check_unexpected_body q).
Proof. intros H. cbv beta zeta delta [check_unexpected_body]. walk. Qed.
Lemma check_options_body_says (q : request) : hears Req (q_msg q) t_check_options_body -> emits E P (check_options_body q).
Proof. intros H. cbv beta zeta delta [check_options_body]. walk. Qed.
Lemma check_expect_says (q : request) : hears Req (q_msg q) t_check_expect -> emits E P (check_expect q).
Proof. intros H. cbv beta zeta delta [check_expect]. walk. Qed.
Lemma check_max_forwards_says (q : request) : hears Req (q_msg q) t_check_max_forwards -> emits E P (check_max_forwards q).
Proof. intros H. cbv beta zeta delta [check_max_forwards]. walk. Qed.
Lemma check_referer_says (q : request) : hears Req (q_msg q) t_check_referer -> emits E P (check_referer q).
Proof. intros H. cbv beta zeta delta [check_referer]. walk. Qed.
Lemma check_user_agent_says (q : request) : hears Req (q_msg q) t_check_user_agent -> emits E P (check_user_agent q).
Proof. intros H. cbv beta zeta delta [check_user_agent]. walk. Qed.
Lemma check_accept_encoding_says (q : request) : hears Req (q_msg q) t_check_accept_encoding -> emits E P (check_accept_encoding q).
Proof. intros H. cbv beta zeta delta [check_accept_encoding]. walk. Qed.
Lemma check_if_match_says (q : request) : hears Req (q_msg q) t_check_if_match -> emits E P (check_if_match q).
Proof. intros H. cbv beta zeta delta [check_if_match]. walk. Qed.
Lemma check_head_preconditions_says (q : request) : hears Req (q_msg q) t_check_head_preconditions -> emits E P (check_head_preconditions q).
Proof. intros H. cbv beta zeta delta [check_head_preconditions]. walk. Qed.
Lemma check_preconditions_says (q : request) : hears Req (q_msg q) t_check_preconditions -> emits E P (check_preconditions q).
Proof. intros H. cbv beta zeta delta [check_preconditions]. walk. Qed.
Lemma check_range_says (q : request) : hears Req (q_msg q) t_check_range -> emits E P (check_range q).
Proof. intros H. cbv beta zeta delta [check_range]. walk. Qed.
Lemma check_if_range_says (q : request) : hears Req (q_msg q) t_check_if_range -> emits E P (check_if_range q).
Proof. intros H. cbv beta zeta delta [check_if_range]. walk. Qed.
Lemma check_if_range_weak_says (q : request) : hears Req (q_msg q) t_check_if_range_weak -> emits E P (check_if_range_weak q).
Proof. intros H. cbv beta zeta delta [check_if_range_weak]. walk. Qed.
Lemma check_cache_directives_says (q : request) : hears Req (q_msg q) t_check_cache_directives -> emits E P (check_cache_directives q).
Proof. intros H. cbv beta zeta delta [check_cache_directives]. walk. Qed.
Lemma check_no_cache_pragma_says (q : request) : hears Req (q_msg q) t_check_no_cache_pragma -> emits E P (check_no_cache_pragma q).
Proof. intros H. cbv beta zeta delta [check_no_cache_pragma]. walk. Qed.
Lemma check_request_warnings_says (q : request) : hears Req (q_msg q) t_check_request_warnings -> emits E P (check_request_warnings q).
Proof. intros H. cbv beta zeta delta [check_request_warnings]. walk. Qed.
Lemma check_uncacheable_method_says (q : request) : hears Req (q_msg q) t_check_uncacheable_method -> emits E P (check_uncacheable_method q).
Proof. intros H. cbv beta zeta delta [check_uncacheable_method]. walk. Qed.
Lemma check_directive_pairs_says (q : request) : hears Req (q_msg q) t_check_directive_pairs -> emits E P (check_directive_pairs q).
Proof. intros H. cbv beta zeta delta [check_directive_pairs]. walk. Qed.
Lemma check_basic_auth_says (q : request) (x1 : string) (x2 : val) : hears Req (q_msg q) t_check_basic_auth -> emits E P (check_basic_auth q x1 x2).
Proof. intros H. cbv beta zeta delta [check_basic_auth]. walk. Qed.
Hint Extern 0 (emits _ _ (check_basic_auth _ _ _)) => apply check_basic_auth_says; [heard] : says.
Lemma check_bearer_auth_says (q : request) (x1 : string) (x2 : val) : hears Req (q_msg q) t_check_bearer_auth -> emits E P (check_bearer_auth q x1 x2).
Proof. intros H. cbv beta zeta delta [check_bearer_auth]. walk. Qed.
Hint Extern 0 (emits _ _ (check_bearer_auth _ _ _)) => apply check_bearer_auth_says; [heard] : says.
Lemma check_authorization_says (q : request) : hears Req (q_msg q) t_check_authorization -> emits E P (check_authorization q).
Proof. intros H. cbv beta zeta delta [check_authorization]. walk. Qed.
Lemma check_patch_says (q : request) : hears Req (q_msg q) t_check_patch -> emits E P (check_patch q).
Proof. intros H. cbv beta zeta delta [check_patch]. walk. Qed.
Lemma check_h2c_says (q : request) : hears Req (q_msg q) t_check_h2c -> emits E P (check_h2c q).
Proof. intros H. cbv beta zeta delta [check_h2c]. walk. Qed.
Lemma check_settings_option_says (q : request) : hears Req (q_msg q) t_check_settings_option -> emits E P (check_settings_option q).
Proof. intros H. cbv beta zeta delta [check_settings_option]. walk. Qed.
Lemma check_settings_says (q : request) : hears Req (q_msg q) t_check_settings -> emits E P (check_settings q).
Proof. intros H. cbv beta zeta delta [check_settings]. walk. Qed.
Lemma check_token_in_uri_says (q : request) : hears Req (q_msg q) t_check_token_in_uri -> emits E P (check_token_in_uri q).
Proof. intros H. cbv beta zeta delta [check_token_in_uri]. walk. Qed.
Lemma check_token_in_body_says (q : request) : hears Req (q_msg q) t_check_token_in_body -> emits E P (check_token_in_body q).
Proof. intros H. cbv beta zeta delta [check_token_in_body]. walk. Qed.
Lemma check_subsumptions_says (q : request) : hears Req (q_msg q) t_check_subsumptions -> emits E P (check_subsumptions q).
Proof. intros H. assert (F : forall l, emits E P (first_subsumption l)) by (induction l as [|[a b] l IH]; cbn [first_subsumption]; walk; exact IH).
  unfold check_subsumptions. walk. Qed.
Lemma check_duplicate_preferences_says (q : request) : hears Req (q_msg q) t_check_duplicate_preferences -> emits E P (check_duplicate_preferences q).
Proof. intros H. cbv beta zeta delta [check_duplicate_preferences]. walk. Qed.
Lemma check_respond_async_says (q : request) : hears Req (q_msg q) t_check_respond_async -> emits E P (check_respond_async q).
Proof. intros H. cbv beta zeta delta [check_respond_async]. walk. Qed.
Lemma check_return_minimal_says (q : request) : hears Req (q_msg q) t_check_return_minimal -> emits E P (check_return_minimal q).
Proof. intros H. cbv beta zeta delta [check_return_minimal]. walk. Qed.
Lemma check_return_both_says (q : request) : hears Req (q_msg q) t_check_return_both -> emits E P (check_return_both q).
Proof. intros H. cbv beta zeta delta [check_return_both]. walk. Qed.
Lemma check_handling_both_says (q : request) : hears Req (q_msg q) t_check_handling_both -> emits E P (check_handling_both q).
Proof. intros H. cbv beta zeta delta [check_handling_both]. walk. Qed.
Lemma from_cache_date_says (n : nat) (p : response) (req : option request) : hears (Resp n) (p_msg p) t_from_cache_date -> (forall q, req = Some q -> hears Req (q_msg q) tq_from_cache_date) -> emits E P (from_cache_date n p req).
Proof. intros H HQ. cbv beta zeta delta [from_cache_date]. walk. Qed.
Hint Extern 0 (emits _ _ (from_cache_date _ _ _)) => apply from_cache_date_says; [heard|first [heard|asks|asked|intros; heard]] : says.
Lemma first_cache_warning_says (n : nat) (p : response) (req : option request) (x1 : list val) : hears (Resp n) (p_msg p) t_first_cache_warning -> (forall q, req = Some q -> hears Req (q_msg q) tq_first_cache_warning) -> emits E P (first_cache_warning n p req x1).
Proof. intros H HQ. induction x1 as [|c l IH]; cbn [first_cache_warning]; walk; exact IH. Qed.
Hint Extern 0 (emits _ _ (first_cache_warning _ _ _ _)) => apply first_cache_warning_says; [heard|first [heard|asks|asked|intros; heard]] : says.
Lemma from_cache_says (n : nat) (p : response) (req : option request) : hears (Resp n) (p_msg p) t_from_cache -> (forall q, req = Some q -> hears Req (q_msg q) tq_from_cache) -> emits E P (from_cache n p req).
Proof. intros H HQ. cbv beta zeta delta [from_cache]. walk. Qed.
Hint Extern 0 (emits _ _ (from_cache _ _ _)) => apply from_cache_says; [heard|first [heard|asks|asked|intros; heard]] : says.
Lemma heuristic_expiration_says (n : nat) (p : response) (req : option request) : hears (Resp n) (p_msg p) t_heuristic_expiration -> (forall q, req = Some q -> hears Req (q_msg q) tq_heuristic_expiration) -> emits E P (heuristic_expiration n p req).
Proof. intros H HQ. cbv beta zeta delta [heuristic_expiration]. walk. Qed.
Hint Extern 0 (emits _ _ (heuristic_expiration _ _ _)) => apply heuristic_expiration_says; [heard|first [heard|asks|asked|intros; heard]] : says.
Lemma stale_says (n : nat) (p : response) (req : option request) : hears (Resp n) (p_msg p) t_stale -> (forall q, req = Some q -> hears Req (q_msg q) tq_stale) -> emits E P (stale n p req).
Proof. intros H HQ. cbv beta zeta delta [stale]. walk. Qed.
Hint Extern 0 (emits _ _ (stale _ _ _)) => apply stale_says; [heard|first [heard|asks|asked|intros; heard]] : says.
Lemma delimited_by_close_says (n : nat) (p : response) (req : option request) : hears (Resp n) (p_msg p) t_delimited_by_close -> (forall q, req = Some q -> hears Req (q_msg q) tq_delimited_by_close) -> emits E P (delimited_by_close n p req).
Proof. intros H HQ. cbv beta zeta delta [delimited_by_close]. walk. Qed.
Hint Extern 0 (emits _ _ (delimited_by_close _ _ _)) => apply delimited_by_close_says; [heard|first [heard|asks|asked|intros; heard]] : says.
Lemma check_reason_says (n : nat) (p : response) (req : option request) : hears (Resp n) (p_msg p) t_check_reason -> (forall q, req = Some q -> hears Req (q_msg q) tq_check_reason) -> emits E P (check_reason n p req).
Proof. intros H HQ. cbv beta zeta delta [check_reason]. walk. Qed.
Lemma check_status_range_says (n : nat) (p : response) (req : option request) : hears (Resp n) (p_msg p) t_check_status_range -> (forall q, req = Some q -> hears Req (q_msg q) tq_check_status_range) -> emits E P (check_status_range n p req).
Proof. intros H HQ. cbv beta zeta delta [check_status_range]. walk. Qed.
Lemma check_close_option_says (n : nat) (p : response) (req : option request) : hears (Resp n) (p_msg p) t_check_close_option -> (forall q, req = Some q -> hears Req (q_msg q) tq_check_close_option) -> emits E P (check_close_option n p req).
Proof. intros H HQ. cbv beta zeta delta [check_close_option]. walk. Qed.
Lemma check_response_headers_says (n : nat) (p : response) (req : option request) : hears (Resp n) (p_msg p) t_check_response_headers -> (forall q, req = Some q -> hears Req (q_msg q) tq_check_response_headers) -> emits E P (check_response_headers n p req).
Proof. intros H HQ. cbv beta zeta delta [check_response_headers]. walk. Qed.
Lemma check_switching_says (n : nat) (p : response) (req : option request) : hears (Resp n) (p_msg p) t_check_switching -> (forall q, req = Some q -> hears Req (q_msg q) tq_check_switching) -> emits E P (check_switching n p req).
Proof. intros H HQ. cbv beta zeta delta [check_switching]. walk. Qed.
Lemma check_no_content_body_says (n : nat) (p : response) (req : option request) : hears (Resp n) (p_msg p) t_check_no_content_body -> (forall q, req = Some q -> hears Req (q_msg q) tq_check_no_content_body) -> emits E P (check_no_content_body n p req).
Proof. intros H HQ. cbv beta zeta delta [check_no_content_body]. walk. Qed.
Lemma check_reset_content_body_says (n : nat) (p : response) (req : option request) : hears (Resp n) (p_msg p) t_check_reset_content_body -> (forall q, req = Some q -> hears Req (q_msg q) tq_check_reset_content_body) -> emits E P (check_reset_content_body n p req).
Proof. intros H HQ. cbv beta zeta delta [check_reset_content_body]. walk. Qed.
Lemma check_location_missing_says (n : nat) (p : response) (req : option request) : hears (Resp n) (p_msg p) t_check_location_missing -> (forall q, req = Some q -> hears Req (q_msg q) tq_check_location_missing) -> emits E P (check_location_missing n p req).
Proof. intros H HQ. cbv beta zeta delta [check_location_missing]. walk. Qed.
Lemma check_odd_status_says (n : nat) (p : response) (req : option request) : hears (Resp n) (p_msg p) t_check_odd_status -> (forall q, req = Some q -> hears Req (q_msg q) tq_check_odd_status) -> emits E P (check_odd_status n p req).
Proof. intros H HQ. cbv beta zeta delta [check_odd_status]. walk. Qed.
Lemma check_allow_missing_says (n : nat) (p : response) (req : option request) : hears (Resp n) (p_msg p) t_check_allow_missing -> (forall q, req = Some q -> hears Req (q_msg q) tq_check_allow_missing) -> emits E P (check_allow_missing n p req).
Proof. intros H HQ. cbv beta zeta delta [check_allow_missing]. walk. Qed.
Lemma check_timeout_close_says (n : nat) (p : response) (req : option request) : hears (Resp n) (p_msg p) t_check_timeout_close -> (forall q, req = Some q -> hears Req (q_msg q) tq_check_timeout_close) -> emits E P (check_timeout_close n p req).
Proof. intros H HQ. cbv beta zeta delta [check_timeout_close]. walk. Qed.
Lemma check_date_missing_says (n : nat) (p : response) (req : option request) : hears (Resp n) (p_msg p) t_check_date_missing -> (forall q, req = Some q -> hears Req (q_msg q) tq_check_date_missing) -> emits E P (check_date_missing n p req).
Proof. intros H HQ. cbv beta zeta delta [check_date_missing]. walk. Qed.
Lemma check_created_fragment_says (n : nat) (p : response) (req : option request) : hears (Resp n) (p_msg p) t_check_created_fragment -> (forall q, req = Some q -> hears Req (q_msg q) tq_check_created_fragment) -> emits E P (check_created_fragment n p req).
Proof. intros H HQ. cbv beta zeta delta [check_created_fragment]. walk. Qed.
Lemma check_last_modified_says (n : nat) (p : response) (req : option request) : hears (Resp n) (p_msg p) t_check_last_modified -> (forall q, req = Some q -> hears Req (q_msg q) tq_check_last_modified) -> emits E P (check_last_modified n p req).
Proof. intros H HQ. cbv beta zeta delta [check_last_modified]. walk. Qed.
Lemma check_304_headers_says (n : nat) (p : response) (req : option request) : hears (Resp n) (p_msg p) t_check_304_headers -> (forall q, req = Some q -> hears Req (q_msg q) tq_check_304_headers) -> emits E P (check_304_headers n p req).
Proof. intros H HQ. cbv beta zeta delta [check_304_headers]. walk. Qed.
Lemma check_byteranges_says (n : nat) (p : response) (req : option request) : hears (Resp n) (p_msg p) t_check_byteranges -> (forall q, req = Some q -> hears Req (q_msg q) tq_check_byteranges) -> emits E P (check_byteranges n p req).
Proof. intros H HQ. cbv beta zeta delta [check_byteranges]. walk. Qed.
Hint Extern 0 (emits _ _ (check_byteranges _ _ _)) => apply check_byteranges_says; [heard|first [heard|asks|asked|intros; heard]] : says.
Lemma check_partial_content_says (n : nat) (p : response) (req : option request) : hears (Resp n) (p_msg p) t_check_partial_content -> (forall q, req = Some q -> hears Req (q_msg q) tq_check_partial_content) -> emits E P (check_partial_content n p req).
Proof. intros H HQ. cbv beta zeta delta [check_partial_content]. walk. Qed.
Lemma check_response_directives_says (n : nat) (p : response) (req : option request) : hears (Resp n) (p_msg p) t_check_response_directives -> (forall q, req = Some q -> hears Req (q_msg q) tq_check_response_directives) -> emits E P (check_response_directives n p req).
Proof. intros H HQ. cbv beta zeta delta [check_response_directives]. walk. Qed.
Lemma check_pragma_no_cache_says (n : nat) (p : response) (req : option request) : hears (Resp n) (p_msg p) t_check_pragma_no_cache -> (forall q, req = Some q -> hears Req (q_msg q) tq_check_pragma_no_cache) -> emits E P (check_pragma_no_cache n p req).
Proof. intros H HQ. cbv beta zeta delta [check_pragma_no_cache]. walk. Qed.
Lemma check_blocked_by_says (n : nat) (p : response) (req : option request) : hears (Resp n) (p_msg p) t_check_blocked_by -> (forall q, req = Some q -> hears Req (q_msg q) tq_check_blocked_by) -> emits E P (check_blocked_by n p req).
Proof. intros H HQ. cbv beta zeta delta [check_blocked_by]. walk. Qed.
Lemma check_filename_says (n : nat) (p : response) (req : option request) (x1 : val) : hears (Resp n) (p_msg p) t_check_filename -> (forall q, req = Some q -> hears Req (q_msg q) tq_check_filename) -> emits E P (check_filename n p req x1).
Proof. intros H HQ. cbv beta zeta delta [check_filename]. walk. Qed.
Hint Extern 0 (emits _ _ (check_filename _ _ _ _)) => apply check_filename_says; [heard|first [heard|asks|asked|intros; heard]] : says.
Lemma check_filename_order_says (n : nat) (p : response) (req : option request) (x1 : list (val * val)) : hears (Resp n) (p_msg p) t_check_filename_order -> (forall q, req = Some q -> hears Req (q_msg q) tq_check_filename_order) -> emits E P (check_filename_order n p req x1).
Proof. intros H HQ. cbv beta zeta delta [check_filename_order]. walk. Qed.
Hint Extern 0 (emits _ _ (check_filename_order _ _ _ _)) => apply check_filename_order_says; [heard|first [heard|asks|asked|intros; heard]] : says.
Lemma check_disposition_says (n : nat) (p : response) (req : option request) : hears (Resp n) (p_msg p) t_check_disposition -> (forall q, req = Some q -> hears Req (q_msg q) tq_check_disposition) -> emits E P (check_disposition n p req).
Proof. intros H HQ. cbv beta zeta delta [check_disposition]. walk. Qed.
Lemma check_alt_svc_says (n : nat) (p : response) (req : option request) : hears (Resp n) (p_msg p) t_check_alt_svc -> (forall q, req = Some q -> hears Req (q_msg q) tq_check_alt_svc) -> emits E P (check_alt_svc n p req).
Proof. intros H HQ. cbv beta zeta delta [check_alt_svc]. walk. Qed.
Lemma check_sts_says (n : nat) (p : response) (req : option request) : hears (Resp n) (p_msg p) t_check_sts -> (forall q, req = Some q -> hears Req (q_msg q) tq_check_sts) -> emits E P (check_sts n p req).
Proof. intros H HQ. cbv beta zeta delta [check_sts]. walk. Qed.
Lemma check_accept_patch_says (n : nat) (p : response) (req : option request) : hears (Resp n) (p_msg p) t_check_accept_patch -> (forall q, req = Some q -> hears Req (q_msg q) tq_check_accept_patch) -> emits E P (check_accept_patch n p req).
Proof. intros H HQ. cbv beta zeta delta [check_accept_patch]. walk. Qed.
Lemma check_response_pairs_says (n : nat) (p : response) (req : option request) : hears (Resp n) (p_msg p) t_check_response_pairs -> (forall q, req = Some q -> hears Req (q_msg q) tq_check_response_pairs) -> emits E P (check_response_pairs n p req).
Proof. intros H HQ. cbv beta zeta delta [check_response_pairs]. walk. Qed.
Lemma check_overridden_says (n : nat) (p : response) (req : option request) : hears (Resp n) (p_msg p) t_check_overridden -> (forall q, req = Some q -> hears Req (q_msg q) tq_check_overridden) -> emits E P (check_overridden n p req).
Proof. intros H HQ. cbv beta zeta delta [check_overridden]. walk. Qed.
Lemma check_vary_host_says (n : nat) (p : response) (req : option request) : hears (Resp n) (p_msg p) t_check_vary_host -> (forall q, req = Some q -> hears Req (q_msg q) tq_check_vary_host) -> emits E P (check_vary_host n p req).
Proof. intros H HQ. cbv beta zeta delta [check_vary_host]. walk. Qed.
Lemma check_challenge_missing_says (n : nat) (p : response) (req : option request) : hears (Resp n) (p_msg p) t_check_challenge_missing -> (forall q, req = Some q -> hears Req (q_msg q) tq_check_challenge_missing) -> emits E P (check_challenge_missing n p req).
Proof. intros H HQ. cbv beta zeta delta [check_challenge_missing]. walk. Qed.
Lemma check_proxy_challenge_missing_says (n : nat) (p : response) (req : option request) : hears (Resp n) (p_msg p) t_check_proxy_challenge_missing -> (forall q, req = Some q -> hears Req (q_msg q) tq_check_proxy_challenge_missing) -> emits E P (check_proxy_challenge_missing n p req).
Proof. intros H HQ. cbv beta zeta delta [check_proxy_challenge_missing]. walk. Qed.
Lemma check_basic_challenge_says (n : nat) (p : response) (req : option request) (x1 : string) (x2 : val) : hears (Resp n) (p_msg p) t_check_basic_challenge -> (forall q, req = Some q -> hears Req (q_msg q) tq_check_basic_challenge) -> emits E P (check_basic_challenge n p req x1 x2).
Proof. intros H HQ. cbv beta zeta delta [check_basic_challenge]. walk. Qed.
Hint Extern 0 (emits _ _ (check_basic_challenge _ _ _ _ _)) => apply check_basic_challenge_says; [heard|first [heard|asks|asked|intros; heard]] : says.
Lemma bearer_in_header_says (q : request) : hears Req (q_msg q) t_bearer_in_header -> emits E P (bearer_in_header q).
Proof. intros H. cbv beta zeta delta [bearer_in_header]. walk. Qed.
Hint Extern 0 (emits _ _ (bearer_in_header _)) => apply bearer_in_header_says; [heard] : says.
Lemma request_has_token_says (q : request) : hears Req (q_msg q) t_request_has_token -> emits E P (request_has_token q).
Proof. intros H. cbv beta zeta delta [request_has_token]. walk. Qed.
Hint Extern 0 (emits _ _ (request_has_token _)) => apply request_has_token_says; [heard] : says.
Lemma check_bearer_params_says (n : nat) (p : response) (req : option request) (x1 : val) (x2 : option bool) : hears (Resp n) (p_msg p) t_check_bearer_params -> (forall q, req = Some q -> hears Req (q_msg q) tq_check_bearer_params) -> emits E P (check_bearer_params n p req x1 x2).
Proof. intros H HQ. cbv beta zeta delta [check_bearer_params]. walk. Qed.
Hint Extern 0 (emits _ _ (check_bearer_params _ _ _ _ _)) => apply check_bearer_params_says; [heard|first [heard|asks|asked|intros; heard]] : says.
Lemma check_bearer_challenge_says (n : nat) (p : response) (req : option request) (x1 : val) : hears (Resp n) (p_msg p) t_check_bearer_challenge -> (forall q, req = Some q -> hears Req (q_msg q) tq_check_bearer_challenge) -> emits E P (check_bearer_challenge n p req x1).
Proof. intros H HQ. cbv beta zeta delta [check_bearer_challenge]. walk. Qed.
Hint Extern 0 (emits _ _ (check_bearer_challenge _ _ _ _)) => apply check_bearer_challenge_says; [heard|first [heard|asks|asked|intros; heard]] : says.
Lemma check_challenges_says (n : nat) (p : response) (req : option request) : hears (Resp n) (p_msg p) t_check_challenges -> (forall q, req = Some q -> hears Req (q_msg q) tq_check_challenges) -> emits E P (check_challenges n p req).
Proof. intros H HQ. cbv beta zeta delta [check_challenges]. walk. Qed.
Lemma check_no_body_status_says (n : nat) (p : response) (req : option request) : hears (Resp n) (p_msg p) t_check_no_body_status -> (forall q, req = Some q -> hears Req (q_msg q) tq_check_no_body_status) -> emits E P (check_no_body_status n p req).
Proof. intros H HQ. cbv beta zeta delta [check_no_body_status]. walk. Qed.
Lemma check_informational_close_says (n : nat) (p : response) (req : option request) : hears (Resp n) (p_msg p) t_check_informational_close -> (forall q, req = Some q -> hears Req (q_msg q) tq_check_informational_close) -> emits E P (check_informational_close n p req).
Proof. intros H HQ. cbv beta zeta delta [check_informational_close]. walk. Qed.
Lemma check_informational_metadata_says (n : nat) (p : response) (req : option request) : hears (Resp n) (p_msg p) t_check_informational_metadata -> (forall q, req = Some q -> hears Req (q_msg q) tq_check_informational_metadata) -> emits E P (check_informational_metadata n p req).
Proof. intros H HQ. cbv beta zeta delta [check_informational_metadata]. walk. Qed.
Lemma check_location_useless_says (n : nat) (p : response) (req : option request) : hears (Resp n) (p_msg p) t_check_location_useless -> (forall q, req = Some q -> hears Req (q_msg q) tq_check_location_useless) -> emits E P (check_location_useless n p req).
Proof. intros H HQ. cbv beta zeta delta [check_location_useless]. walk. Qed.
Lemma check_retry_after_says (n : nat) (p : response) (req : option request) : hears (Resp n) (p_msg p) t_check_retry_after -> (forall q, req = Some q -> hears Req (q_msg q) tq_check_retry_after) -> emits E P (check_retry_after n p req).
Proof. intros H HQ. cbv beta zeta delta [check_retry_after]. walk. Qed.
Lemma check_content_range_says (n : nat) (p : response) (req : option request) : hears (Resp n) (p_msg p) t_check_content_range -> (forall q, req = Some q -> hears Req (q_msg q) tq_check_content_range) -> emits E P (check_content_range n p req).
Proof. intros H HQ. cbv beta zeta delta [check_content_range]. walk. Qed.
Lemma check_from_cache_says (n : nat) (p : response) (req : option request) : hears (Resp n) (p_msg p) t_check_from_cache -> (forall q, req = Some q -> hears Req (q_msg q) tq_check_from_cache) -> emits E P (check_from_cache n p req).
Proof. intros H HQ. cbv beta zeta delta [check_from_cache]. walk. Qed.
Lemma check_heuristic_says (n : nat) (p : response) (req : option request) : hears (Resp n) (p_msg p) t_check_heuristic -> (forall q, req = Some q -> hears Req (q_msg q) tq_check_heuristic) -> emits E P (check_heuristic n p req).
Proof. intros H HQ. cbv beta zeta delta [check_heuristic]. walk. Qed.
Lemma check_stale_says (n : nat) (p : response) (req : option request) : hears (Resp n) (p_msg p) t_check_stale -> (forall q, req = Some q -> hears Req (q_msg q) tq_check_stale) -> emits E P (check_stale n p req).
Proof. intros H HQ. cbv beta zeta delta [check_stale]. walk. Qed.
Lemma check_immutable_says (n : nat) (p : response) (req : option request) : hears (Resp n) (p_msg p) t_check_immutable -> (forall q, req = Some q -> hears Req (q_msg q) tq_check_immutable) -> emits E P (check_immutable n p req).
Proof. intros H HQ. cbv beta zeta delta [check_immutable]. walk. Qed.
Lemma check_allow_says (n : nat) (p : response) (req : option request) : hears (Resp n) (p_msg p) t_check_allow -> (forall q, req = Some q -> hears Req (q_msg q) tq_check_allow) -> emits E P (check_allow n p req).
Proof. intros H HQ. cbv beta zeta delta [check_allow]. walk. Qed.
Lemma check_via_missing_says (n : nat) (p : response) (req : option request) : hears (Resp n) (p_msg p) t_check_via_missing -> (forall q, req = Some q -> hears Req (q_msg q) tq_check_via_missing) -> emits E P (check_via_missing n p req).
Proof. intros H HQ. cbv beta zeta delta [check_via_missing]. walk. Qed.
Lemma check_untyped_says (n : nat) (p : response) (req : option request) (q : request) : hears (Resp n) (p_msg p) t_check_untyped -> hears Req (q_msg q) tq_check_untyped -> emits E P (check_untyped n p req q).
Proof. intros H HQ. cbv beta zeta delta [check_untyped]. walk. Qed.
Lemma check_connect_says (n : nat) (p : response) (req : option request) (q : request) : hears (Resp n) (p_msg p) t_check_connect -> hears Req (q_msg q) tq_check_connect -> emits E P (check_connect n p req q).
Proof. intros H HQ. cbv beta zeta delta [check_connect]. walk. Qed.
Lemma check_head_body_says (n : nat) (p : response) (req : option request) (q : request) : hears (Resp n) (p_msg p) t_check_head_body -> hears Req (q_msg q) tq_check_head_body -> emits E P (check_head_body n p req q).
Proof. intros H HQ. cbv beta zeta delta [check_head_body]. walk. Qed.
Lemma check_te_to_http10_says (n : nat) (p : response) (req : option request) (q : request) : hears (Resp n) (p_msg p) t_check_te_to_http10 -> hears Req (q_msg q) tq_check_te_to_http10 -> emits E P (check_te_to_http10 n p req q).
Proof. intros H HQ. cbv beta zeta delta [check_te_to_http10]. walk. Qed.
Lemma check_bad_host_says (n : nat) (p : response) (req : option request) (q : request) : hears (Resp n) (p_msg p) t_check_bad_host -> hears Req (q_msg q) tq_check_bad_host -> emits E P (check_bad_host n p req q).
Proof. intros H HQ. cbv beta zeta delta [check_bad_host]. walk. Qed.
Lemma check_proxy_transformed_says (n : nat) (p : response) (req : option request) (q : request) : hears (Resp n) (p_msg p) t_check_proxy_transformed -> hears Req (q_msg q) tq_check_proxy_transformed -> emits E P (check_proxy_transformed n p req q).
Proof. intros H HQ. cbv beta zeta delta [check_proxy_transformed]. walk. Qed.
Lemma check_proxy_via_says (n : nat) (p : response) (req : option request) (q : request) : hears (Resp n) (p_msg p) t_check_proxy_via -> hears Req (q_msg q) tq_check_proxy_via -> emits E P (check_proxy_via n p req q).
Proof. intros H HQ. cbv beta zeta delta [check_proxy_via]. walk. Qed.
Lemma check_switched_says (n : nat) (p : response) (req : option request) (q : request) : hears (Resp n) (p_msg p) t_check_switched -> hears Req (q_msg q) tq_check_switched -> emits E P (check_switched n p req q).
Proof. intros H HQ. cbv beta zeta delta [check_switched]. walk. Qed.
Lemma same_uri_says (n : nat) (p : response) (req : option request) (q : request) (x1 : string) : hears (Resp n) (p_msg p) t_same_uri -> hears Req (q_msg q) tq_same_uri -> emits E P (same_uri n p req q x1).
Proof. intros H HQ. cbv beta zeta delta [same_uri]. walk. Qed.
Hint Extern 0 (emits _ _ (same_uri _ _ _ _ _)) => apply same_uri_says; [heard|first [heard|asks|asked|intros; heard]] : says.
Lemma check_content_location_says (n : nat) (p : response) (req : option request) (q : request) : hears (Resp n) (p_msg p) t_check_content_location -> hears Req (q_msg q) tq_check_content_location -> emits E P (check_content_location n p req q).
Proof. intros H HQ. cbv beta zeta delta [check_content_location]. walk. Qed.
Lemma check_self_redirect_says (n : nat) (p : response) (req : option request) (q : request) : hears (Resp n) (p_msg p) t_check_self_redirect -> hears Req (q_msg q) tq_check_self_redirect -> emits E P (check_self_redirect n p req q).
Proof. intros H HQ. cbv beta zeta delta [check_self_redirect]. walk. Qed.
Lemma check_partial_put_says (n : nat) (p : response) (req : option request) (q : request) : hears (Resp n) (p_msg p) t_check_partial_put -> hears Req (q_msg q) tq_check_partial_put -> emits E P (check_partial_put n p req q).
Proof. intros H HQ. cbv beta zeta delta [check_partial_put]. walk. Qed.
Lemma check_safe_method_says (n : nat) (p : response) (req : option request) (q : request) : hears (Resp n) (p_msg p) t_check_safe_method -> hears Req (q_msg q) tq_check_safe_method -> emits E P (check_safe_method n p req q).
Proof. intros H HQ. cbv beta zeta delta [check_safe_method]. walk. Qed.
Lemma check_created_location_says (n : nat) (p : response) (req : option request) (q : request) : hears (Resp n) (p_msg p) t_check_created_location -> hears Req (q_msg q) tq_check_created_location -> emits E P (check_created_location n p req q).
Proof. intros H HQ. cbv beta zeta delta [check_created_location]. walk. Qed.
Lemma check_empty_body_says (n : nat) (p : response) (req : option request) (q : request) : hears (Resp n) (p_msg p) t_check_empty_body -> hears Req (q_msg q) tq_check_empty_body -> emits E P (check_empty_body n p req q).
Proof. intros H HQ. cbv beta zeta delta [check_empty_body]. walk. Qed.
Lemma check_asterisk_redirect_says (n : nat) (p : response) (req : option request) (q : request) : hears (Resp n) (p_msg p) t_check_asterisk_redirect -> hears Req (q_msg q) tq_check_asterisk_redirect -> emits E P (check_asterisk_redirect n p req q).
Proof. intros H HQ. cbv beta zeta delta [check_asterisk_redirect]. walk. Qed.
Lemma check_not_acceptable_says (n : nat) (p : response) (req : option request) (q : request) : hears (Resp n) (p_msg p) t_check_not_acceptable -> hears Req (q_msg q) tq_check_not_acceptable -> emits E P (check_not_acceptable n p req q).
Proof. intros H HQ. cbv beta zeta delta [check_not_acceptable]. walk. Qed.
Lemma check_length_required_says (n : nat) (p : response) (req : option request) (q : request) : hears (Resp n) (p_msg p) t_check_length_required -> hears Req (q_msg q) tq_check_length_required -> emits E P (check_length_required n p req q).
Proof. intros H HQ. cbv beta zeta delta [check_length_required]. walk. Qed.
Lemma check_no_request_body_says (n : nat) (p : response) (req : option request) (q : request) : hears (Resp n) (p_msg p) t_check_no_request_body -> hears Req (q_msg q) tq_check_no_request_body -> emits E P (check_no_request_body n p req q).
Proof. intros H HQ. cbv beta zeta delta [check_no_request_body]. walk. Qed.
Lemma check_expectation_says (n : nat) (p : response) (req : option request) (q : request) : hears (Resp n) (p_msg p) t_check_expectation -> hears Req (q_msg q) tq_check_expectation -> emits E P (check_expectation n p req q).
Proof. intros H HQ. cbv beta zeta delta [check_expectation]. walk. Qed.
Lemma first_common_says (n : nat) (p : response) (req : option request) (q : request) (x1 : list val) : hears (Resp n) (p_msg p) t_first_common -> hears Req (q_msg q) tq_first_common -> emits E P (first_common n p req q x1).
Proof. intros H HQ. induction x1 as [|c l IH]; cbn [first_common]; walk; exact IH. Qed.
Hint Extern 0 (emits _ _ (first_common _ _ _ _ _)) => apply first_common_says; [heard|first [heard|asks|asked|intros; heard]] : says.
Lemma check_common_upgrade_says (n : nat) (p : response) (req : option request) (q : request) : hears (Resp n) (p_msg p) t_check_common_upgrade -> hears Req (q_msg q) tq_check_common_upgrade -> emits E P (check_common_upgrade n p req q).
Proof. intros H HQ. cbv beta zeta delta [check_common_upgrade]. walk. Qed.
Lemma check_upgrade_required_says (n : nat) (p : response) (req : option request) : hears (Resp n) (p_msg p) t_check_upgrade_required -> (forall q, req = Some q -> hears Req (q_msg q) tq_check_upgrade_required) -> emits E P (check_upgrade_required n p req).
Proof. intros H HQ. cbv beta zeta delta [check_upgrade_required]. walk. Qed.
Lemma check_version_refused_says (n : nat) (p : response) (req : option request) (q : request) : hears (Resp n) (p_msg p) t_check_version_refused -> hears Req (q_msg q) tq_check_version_refused -> emits E P (check_version_refused n p req q).
Proof. intros H HQ. cbv beta zeta delta [check_version_refused]. walk. Qed.
Lemma check_allowed_says (n : nat) (p : response) (req : option request) (q : request) : hears (Resp n) (p_msg p) t_check_allowed -> hears Req (q_msg q) tq_check_allowed -> emits E P (check_allowed n p req q).
Proof. intros H HQ. cbv beta zeta delta [check_allowed]. walk. Qed.
Lemma check_not_modified_needed_says (n : nat) (p : response) (req : option request) (q : request) : hears (Resp n) (p_msg p) t_check_not_modified_needed -> hears Req (q_msg q) tq_check_not_modified_needed -> emits E P (check_not_modified_needed n p req q).
Proof. intros H HQ. cbv beta zeta delta [check_not_modified_needed]. walk. Qed.
Lemma check_no_precondition_says (n : nat) (p : response) (req : option request) (q : request) : hears (Resp n) (p_msg p) t_check_no_precondition -> hears Req (q_msg q) tq_check_no_precondition -> emits E P (check_no_precondition n p req q).
Proof. intros H HQ. cbv beta zeta delta [check_no_precondition]. walk. Qed.
Lemma check_partial_range_says (n : nat) (p : response) (req : option request) (q : request) : hears (Resp n) (p_msg p) t_check_partial_range -> hears Req (q_msg q) tq_check_partial_range -> emits E P (check_partial_range n p req q).
Proof. intros H HQ. cbv beta zeta delta [check_partial_range]. walk. Qed.
Lemma check_single_range_says (n : nat) (p : response) (req : option request) (q : request) : hears (Resp n) (p_msg p) t_check_single_range -> hears Req (q_msg q) tq_check_single_range -> emits E P (check_single_range n p req q).
Proof. intros H HQ. cbv beta zeta delta [check_single_range]. walk. Qed.
Lemma check_if_range_tag_says (n : nat) (p : response) (req : option request) (q : request) : hears (Resp n) (p_msg p) t_check_if_range_tag -> hears Req (q_msg q) tq_check_if_range_tag -> emits E P (check_if_range_tag n p req q).
Proof. intros H HQ. cbv beta zeta delta [check_if_range_tag]. walk. Qed.
Lemma check_if_range_metadata_says (n : nat) (p : response) (req : option request) (q : request) : hears (Resp n) (p_msg p) t_check_if_range_metadata -> hears Req (q_msg q) tq_check_if_range_metadata -> emits E P (check_if_range_metadata n p req q).
Proof. intros H HQ. cbv beta zeta delta [check_if_range_metadata]. walk. Qed.
Lemma check_range_refused_says (n : nat) (p : response) (req : option request) (q : request) : hears (Resp n) (p_msg p) t_check_range_refused -> hears Req (q_msg q) tq_check_range_refused -> emits E P (check_range_refused n p req q).
Proof. intros H HQ. cbv beta zeta delta [check_range_refused]. walk. Qed.
Lemma check_cache_in_context_says (n : nat) (p : response) (q : request) : hears (Resp n) (p_msg p) t_check_cache_in_context -> hears Req (q_msg q) tq_check_cache_in_context -> emits E P (check_cache_in_context n p (Some q) q).
Proof. intros H HQ. cbv beta zeta delta [check_cache_in_context]. walk. Qed.
Lemma check_stale_in_context_says (n : nat) (p : response) (q : request) : hears (Resp n) (p_msg p) t_check_stale_in_context -> hears Req (q_msg q) tq_check_stale_in_context -> emits E P (check_stale_in_context n p (Some q) q).
Proof. intros H HQ. cbv beta zeta delta [check_stale_in_context]. walk. Qed.
Lemma check_precondition_required_says (n : nat) (p : response) (req : option request) (q : request) : hears (Resp n) (p_msg p) t_check_precondition_required -> hears Req (q_msg q) tq_check_precondition_required -> emits E P (check_precondition_required n p req q).
Proof. intros H HQ. cbv beta zeta delta [check_precondition_required]. walk. Qed.
Lemma check_patch_response_says (n : nat) (p : response) (req : option request) (q : request) : hears (Resp n) (p_msg p) t_check_patch_response -> hears Req (q_msg q) tq_check_patch_response -> emits E P (check_patch_response n p req q).
Proof. intros H HQ. cbv beta zeta delta [check_patch_response]. walk. Qed.
Lemma check_sts_over_http_says (n : nat) (p : response) (req : option request) (q : request) : hears (Resp n) (p_msg p) t_check_sts_over_http -> hears Req (q_msg q) tq_check_sts_over_http -> emits E P (check_sts_over_http n p req q).
Proof. intros H HQ. cbv beta zeta delta [check_sts_over_http]. walk. Qed.
Lemma check_misdirected_says (n : nat) (p : response) (req : option request) (q : request) : hears (Resp n) (p_msg p) t_check_misdirected -> hears Req (q_msg q) tq_check_misdirected -> emits E P (check_misdirected n p req q).
Proof. intros H HQ. cbv beta zeta delta [check_misdirected]. walk. Qed.
Lemma check_applied_says (n : nat) (p : response) (req : option request) (q : request) : hears (Resp n) (p_msg p) t_check_applied -> hears Req (q_msg q) tq_check_applied -> emits E P (check_applied n p req q).
Proof. intros H HQ. cbv beta zeta delta [check_applied]. walk. Qed.
Lemma check_options_patch_says (n : nat) (p : response) (req : option request) (q : request) : hears (Resp n) (p_msg p) t_check_options_patch -> hears Req (q_msg q) tq_check_options_patch -> emits E P (check_options_patch n p req q).
Proof. intros H HQ. cbv beta zeta delta [check_options_patch]. walk. Qed.
Lemma check_vary_prefer_says (n : nat) (p : response) (req : option request) (q : request) : hears (Resp n) (p_msg p) t_check_vary_prefer -> hears Req (q_msg q) tq_check_vary_prefer -> emits E P (check_vary_prefer n p req q).
Proof. intros H HQ. cbv beta zeta delta [check_vary_prefer]. walk. Qed.
End Says.
