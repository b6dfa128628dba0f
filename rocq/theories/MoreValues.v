(** Specification: language tags (RFC 5646), encoded parameters (RFC 8187),
    Content-Disposition (RFC 6266), Via, Warning and others. *)
From Coq Require Import String.
From Verif Require Import Base Earley Grammar HttpText SyntaxTags P_Grammar HttpValues UriText.
Open Scope nat_scope.
Open Scope list_scope.
Unset Strict Implicit.
Local Open Scope string_scope.
Local Open Scope list_scope.

(** ** RFC 5646: subtags with hyphens between them *)
Definition is_alnum (c : N) : bool := is_alpha c || is_digit c.
Definition subtag_of (p : N -> bool) (least most : nat) (w : str) : Prop := all p w /\ least <= List.length w <= most.
(** "x", in either case, says that what follows is private. *)
Definition is_x (c : N) : Prop := (c = 88 \/ c = 120)%N.
Definition private_use (l : list str) : Prop := exists c r, l = [c] :: r /\ is_x c /\ r <> [] /\ Forall (subtag_of is_alnum 1 8) r.
Definition extension_of (l : list str) : Prop :=
  exists c r, l = [c] :: r /\ is_alnum c = true /\ ~ is_x c /\ r <> [] /\ Forall (subtag_of is_alnum 2 8) r.
Definition region_of (w : str) : Prop := subtag_of is_alpha 2 2 w \/ subtag_of is_digit 3 3 w.
Definition variant_of (w : str) : Prop := subtag_of is_alnum 5 8 w \/ exists c x, w = c :: x /\ is_digit c = true /\ subtag_of is_alnum 3 3 x.
Definition primary (x : str) (l : list str) : Prop :=
  subtag_of is_alpha 2 3 x /\ List.length l <= 3 /\ Forall (subtag_of is_alpha 3 3) l \/ subtag_of is_alpha 4 8 x /\ l = [].
Definition at_most_one (L : str -> Prop) (l : list str) : Prop := l = [] \/ exists x, l = [x] /\ L x.
Definition language_parts (l : list str) : Prop := exists x e sc r vs es p,
  l = x :: e ++ sc ++ r ++ vs ++ List.concat es ++ p /\ primary x e /\ at_most_one (subtag_of is_alpha 4 4) sc /\ at_most_one region_of r /\
  Forall variant_of vs /\ Forall extension_of es /\ (p = [] \/ private_use p).
(** Tags registered before there were rules. *)
Definition grandfathered_tags : list string :=
  ["en-GB-oed"; "i-ami"; "i-bnn"; "i-default"; "i-enochian"; "i-hak"; "i-klingon"; "i-lux"; "i-mingo"; "i-navajo"; "i-pwn"; "i-tao"; "i-tay"; "i-tsu";
   "sgn-BE-FR"; "sgn-BE-NL"; "sgn-CH-DE"; "art-lojban"; "cel-gaulish"; "no-bok"; "no-nyn"; "zh-guoyu"; "zh-hakka"; "zh-min"; "zh-min-nan"; "zh-xiang"].
Definition language_tag (w : str) : Prop :=
  (exists l, w = between 45 l /\ (language_parts l \/ private_use l)) \/ exists x, In x grandfathered_tags /\ same_text x w.
Definition language_tag_text : reading := fun w v cs => language_tag w /\ v = named "LanguageTag" w /\ cs = [].

(** ** RFC 3629: the bytes of characters *)
Definition scalar (c : N) : Prop := (c < 55296 \/ 57344 <= c < 1114112)%N.
Definition utf8_bytes (c : N) : str :=
  if (c <? 128)%N then [c]
  else if (c <? 2048)%N then [192 + c / 64; 128 + c mod 64]%N
  else if (c <? 65536)%N then [224 + c / 4096; 128 + c / 64 mod 64; 128 + c mod 64]%N
  else [240 + c / 262144; 128 + c / 4096 mod 64; 128 + c / 64 mod 64; 128 + c mod 64]%N.
Definition utf8_text (b : str) : Prop := exists l, Forall scalar l /\ b = flat_map utf8_bytes l.

(** ** RFC 8187 3.2: charset ' [ language ] ' bytes *)
Definition is_attr (c : N) : bool := is_alnum c || HttpText.among (s "!#$&+-.^_`|~") c.
Definition is_mime_charset (c : N) : bool := is_alnum c || HttpText.among (s "!#$%&+-^_`{}~") c.
(** UTF-8 is the only charset one should use (notice 1253), and then the bytes
    must be those of some text (1254). *)
Definition charset_notes (charset bytes : str) (cs : list vcomplaint) : Prop :=
  ~ same_text "utf-8" charset /\ cs = [(1253%N, [(s "charset", named "CaseInsensitive" charset)])] \/
  same_text "utf-8" charset /\ (utf8_text bytes /\ cs = [] \/
    ~ utf8_text bytes /\ cs = [(1254%N, [(s "charset", named "CaseInsensitive" charset); (s "error", VObj (s "UnicodeError") [])])]).
Definition ext_value_text : reading := fun w v cs => exists c l x lv b,
  w = c ++ 39%N :: l ++ 39%N :: x /\ all1 is_mime_charset c /\ (l = [] /\ lv = VNone \/ language_tag l /\ lv = named "LanguageTag" l) /\
  encoded is_attr x /\ decodes x b /\ v = VObj (s "ExtValue") [named "CaseInsensitive" c; lv; VBytes b] /\ charset_notes c b cs.

(** ** RFC 6266 4.1 *)
Definition disposition_param : reading := fun w v cs => exists name a b x u,
  w = name ++ a ++ 61%N :: b ++ x /\ token_text name /\ ows a /\ ows b /\ v = VTuple [named "CaseInsensitive" name; u] /\
  (same_text "filename*" name /\ ext_value_text x u cs \/ ~ same_text "filename*" name /\ word x u cs).
Definition disposition_text : reading := fun w v cs => exists t rest ps,
  w = t ++ rest /\ token_text t /\ after_semicolons disposition_param rest ps cs /\ v = with_params (named "CaseInsensitive" t) ps.

(** ** RFC 7230 5.7.1: Via *)
Definition received_protocol_text (w : str) (v : val) : Prop := exists name version,
  v = VObj (s "Versioned") [VStr name; VStr version] /\ token_text version /\
  (w = version /\ name = s "HTTP" \/ w = name ++ 47%N :: version /\ token_text name).
Definition agent_text (w : str) : Prop := host_and_port w \/ token_text w.
Definition via_text : reading := fun w v cs => exists p g a rest pv u c1 c2,
  w = p ++ g ++ a ++ rest /\ received_protocol_text p pv /\ white_space g c1 /\ agent_text a /\ v = VTuple [pv; VStr a; u] /\ cs = c1 ++ c2 /\
  (rest = [] /\ u = VNone /\ c2 = [] \/ exists h x k1 k2, rest = h ++ x /\ white_space h k1 /\ comment_text x u k2 /\ c2 = k1 ++ k2).

(** ** RFC 7234: Warning, Pragma.  [date] is how dates are read, see C58. *)
Definition warning_text (date : reading) : reading := fun w v cs => exists code a x rest t u c1 c2,
  w = code ++ 32%N :: a ++ 32%N :: x ++ rest /\ all is_digit code /\ List.length code = 3 /\ agent_text a /\ quoted_text x t c1 /\
  v = VObj (s "WarningValue") [named "WarnCode" code; VStr a; t; u] /\ cs = c1 ++ c2 /\
  (rest = [] /\ u = VNone /\ c2 = [] \/ exists d, rest = 32%N :: 34%N :: d ++ [34%N] /\ date d u c2).
Definition pragma_text : reading := fun w v cs =>
  same_text "no-cache" w /\ v = named "CaseInsensitive" w /\ cs = [] \/
  exists name rest u, w = name ++ rest /\ token_text name /\ ~ same_text "no-cache" name /\ v = VObj (s "Parametrized") [VStr name; u] /\
    (rest = [] /\ u = VNone /\ cs = [] \/ exists x, rest = 61%N :: x /\ word x u cs).

(** ** RFC 7232 *)
Definition tag_reading : reading := fun w v cs => exists t, tag_ok t /\ w = tag_text t /\ v = tag_val t /\ cs = tag_notes t.
Definition star_or_tags : reading := fun w v cs => w = s "*" /\ v = VStr w /\ cs = [] \/ list_spec tag_reading list1_shape w v cs.

(** ** Notices to silence: numbers, perhaps with "resp" *)
Definition silence_text : reading := fun w v cs => exists n rest u, w = n ++ rest /\ all1 is_digit n /\ v = VTuple [number n; u] /\
  (rest = [] /\ u = VNone /\ cs = [] \/ exists g x, rest = g ++ x /\ white_space g cs /\ same_text "resp" x /\ u = VBool true).

(** ** Fetch: origins *)
Definition origin_of (w : str) : Prop := exists x h, w = x ++ s "://" ++ h /\ scheme_text x /\ host_and_port h.

(** ** RFC 7239 6: who a request is forwarded for *)
Definition is_obf (c : N) : bool := is_alnum c || HttpText.among (s "._-") c.
Definition obf_text (w : str) : Prop := exists x, w = 95%N :: x /\ all1 is_obf x.
Definition node_name (w : str) (v : val) : Prop :=
  (ipv4_text w \/ same_text "unknown" w \/ obf_text w) /\ v = VStr w \/ exists x, w = 91%N :: x ++ [93%N] /\ ipv6_text x /\ v = VStr x.
Definition node_port_text (w : str) (v : val) : Prop := subtag_of is_digit 1 5 w /\ v = number w \/ obf_text w /\ v = VStr w.
Definition node_text : reading := fun w v cs => exists n rest nv u, w = n ++ rest /\ node_name n nv /\ v = VTuple [nv; u] /\ cs = [] /\
  (rest = [] /\ u = VNone \/ exists p, rest = 58%N :: p /\ node_port_text p u).

(** ** RFC 6749: scopes with single spaces between them, and errors *)
Definition is_nq (c : N) : bool := (c =? 33)%N || ((35 <=? c) && (c <=? 91))%N || ((93 <=? c) && (c <=? 126))%N.
Definition scope_text : reading := fun w v cs => exists l, w = between 32 l /\ l <> [] /\ Forall (all1 is_nq) l /\ v = VList (map VStr l) /\ cs = [].
(** ** RFC 8288 3.3: relation types with spaces between them *)
Definition is_lower (c : N) : bool := (97 <=? c)%N && (c <=? 122)%N.
Definition registered_rel (w : str) : Prop := exists c x, w = c :: x /\ is_lower c = true /\ all (fun c => is_lower c || is_digit c || HttpText.among (s ".-") c) x.
Definition rel_type : reading := fun w v cs => cs = [] /\ (registered_rel w /\ v = named "CaseInsensitive" w \/ uri_text w /\ v = VStr w).
Definition spaces (w : str) (cs : list vcomplaint) : Prop := all1 (N.eqb 32) w /\ cs = [].
Definition rel_text : reading := fun w v cs => exists x rest u us c, w = x ++ rest /\ rel_type x u c /\ each_after spaces rel_type rest us cs /\ v = VList (u :: us).
