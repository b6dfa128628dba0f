(** Specification: header values with parts, written from the RFCs.  Each
    relation is between a string, the value read from it, and the complaints
    about it. *)
From Coq Require Import String.
From Verif Require Import Base Grammar Actions HttpText P_Grammar.
Open Scope nat_scope.
Open Scope list_scope.
Unset Strict Implicit.
Local Open Scope string_scope.
Local Open Scope list_scope.

Definition reading : Type := str -> val -> list vcomplaint -> Prop.
(** An object of a class that wraps a text. *)
Definition named (class : string) (x : str) : val := VObj (s class) [VStr x].
Definition with_params (item : val) (ps : list val) : val := VObj (s "Parametrized") [item; VObj (s "MultiDict") [VList ps]].
(** The same up to the case of ASCII letters. *)
Definition same_text (x : string) (w : str) : Prop := Forall2 (fun c d => c = d \/ is_alpha c = true /\ is_alpha d = true /\ (c = d + 32 \/ d = c + 32)%N) (s x) w.

(** ** RFC 7230 *)

(** 3.2.6: a token; a quoted string, with a notice for each character that was
    quoted without need; either. *)
Definition token_text (w : str) : Prop := all1 is_tchar w.
Definition quoted_text : reading := fun w v cs =>
  exists x text quoted, w = 34%N :: x /\ unquote x = Some (text, quoted) /\ v = VStr text /\
    cs = map (fun c => (1017%N, [(s "char", VStr [c])])) (filter (fun c => negb (N.eqb c 34 || N.eqb c 92)) quoted).
Definition word : reading := fun w v cs => token_text w /\ v = VStr w /\ cs = [] \/ quoted_text w v cs.
(** Parts after semicolons, with optional white space around these. *)
Inductive after_semicolons (part : reading) : str -> list val -> list vcomplaint -> Prop :=
| no_more : after_semicolons part [] [] []
| one_more a b w v cs ws vs css : ows a -> ows b -> part w v cs -> after_semicolons part ws vs css ->
    after_semicolons part (a ++ 59%N :: b ++ w ++ ws) (v :: vs) (cs ++ css).

(** ** RFC 7231 *)

(** 3.1.1.1: name "=" (token / quoted-string). *)
Definition param (class : string) : reading := fun w v cs =>
  exists name x u, token_text name /\ w = name ++ 61%N :: x /\ word x u cs /\ v = VTuple [named class name; u].
(** Notice 1282: these are not media types, but others are. *)
Definition mistaken_types : list (string * string) :=
  [("application/text", "text/plain"); ("plain/text", "text/plain"); ("text/json", "application/json")].
Definition mistaken (x : str) (cs : list vcomplaint) : Prop :=
  (exists bad good, In (bad, good) mistaken_types /\ same_text bad x /\ cs = [(1282%N, [(s "bad", named "MediaType" x); (s "good", named "MediaType" (s good))])]) \/
  (~ (exists bad good, In (bad, good) mistaken_types /\ same_text bad x)) /\ cs = [].
Definition media_type_text : reading := fun w v cs =>
  exists t u rest ps cs1 cs2, token_text t /\ token_text u /\ w = t ++ 47%N :: u ++ rest /\ after_semicolons (param "CaseInsensitive") rest ps cs2 /\
    v = with_params (named "MediaType" (t ++ 47%N :: u)) ps /\ mistaken (t ++ 47%N :: u) cs1 /\ cs = cs1 ++ cs2.

Definition number (w : str) : val := VInt (Z.of_N (decimal w)).

(** 5.3.1: a weight of 0 to 1 with up to three digits; after ";q=" it may
    follow an item. *)
Definition quality (w : str) : Prop :=
  w = [48%N] \/ w = [49%N] \/
  (exists d, w = 48%N :: 46%N :: d /\ List.length d <= 3 /\ all is_digit d) \/
  (exists d, w = 49%N :: 46%N :: d /\ List.length d <= 3 /\ all (N.eqb 48) d).
Definition weighted (item : reading) : reading := fun w v cs =>
  exists x rest u, item x u cs /\ w = x ++ rest /\
    (rest = [] /\ v = VObj (s "Parametrized") [u; VNone] \/
     exists a b q q_value, ows a /\ ows b /\ same_text "q" q /\ quality q_value /\ rest = a ++ 59%N :: b ++ q ++ 61%N :: q_value /\
       v = VObj (s "Parametrized") [u; VFloat q_value]).
(** 5.3.4, 5.3.3: the asterisk also reads as a text. *)
Definition coding_range : reading := fun w v cs => (token_text w /\ v = named "ContentCoding" w \/ w = [42%N] /\ v = VStr w) /\ cs = [].
Definition charset_range : reading := fun w v cs => token_text w /\ v = named "Charset" w /\ cs = [].

(** ** RFC 7233 *)

(** 2.1: "first-", "first-last", "-length"; notice 1133 if it ends before it
    begins. *)
Definition byte_range_text : reading := fun w v cs =>
  (exists a, all1 is_digit a /\ w = a ++ [45%N] /\ v = VTuple [number a; VNone] /\ cs = []) \/
  (exists a b, all1 is_digit a /\ all1 is_digit b /\ w = a ++ 45%N :: b /\ v = VTuple [number a; number b] /\
     ((decimal b < decimal a)%N /\ cs = [(1133%N, [])] \/ (decimal a <= decimal b)%N /\ cs = [])) \/
  (exists n, all1 is_digit n /\ w = 45%N :: n /\ v = VTuple [VNone; number n] /\ cs = []).
Definition range_text : reading := fun w v cs => exists u x r, w = u ++ 61%N :: x /\ v = VObj (s "RangeSpecifier") [named "RangeUnit" u; r] /\
  (same_text "bytes" u /\ list_spec byte_range_text list1_shape x r cs \/
   token_text u /\ ~ same_text "bytes" u /\ all1 is_vchar x /\ r = VStr x /\ cs = []).
(** 4.2: "first-last/length", "first-last/*", "*/length"; notice 1148 if it
    ends before it begins or at the end of the whole or after. *)
Definition content_range_text : reading := fun w v cs => exists u x r, w = u ++ 32%N :: x /\ v = VObj (s "ContentRange") [named "RangeUnit" u; r] /\
  (same_text "bytes" u /\
     ((exists a b n, all1 is_digit a /\ all1 is_digit b /\ all1 is_digit n /\ x = a ++ 45%N :: b ++ 47%N :: n /\
         r = VTuple [VTuple [number a; number b]; number n] /\
         (((decimal b < decimal a)%N \/ (decimal n <= decimal b)%N) /\ cs = [(1148%N, [])] \/ (decimal a <= decimal b < decimal n)%N /\ cs = [])) \/
      (exists a b, all1 is_digit a /\ all1 is_digit b /\ x = a ++ 45%N :: b ++ [47%N; 42%N] /\ r = VTuple [VTuple [number a; number b]; VNone] /\
         ((decimal b < decimal a)%N /\ cs = [(1148%N, [])] \/ (decimal a <= decimal b)%N /\ cs = [])) \/
      (exists n, all1 is_digit n /\ x = 42%N :: 47%N :: n /\ r = VTuple [VNone; number n] /\ cs = [])) \/
   token_text u /\ ~ same_text "bytes" u /\ all (fun c => (1 <=? c)%N && (c <=? 127)%N) x /\ r = VStr x /\ cs = []).

(** ** RFC 7234 *)

(** 5.2: a directive; whether its argument was quoted is kept. *)
Definition directive_text (class : string) : reading := fun w v cs =>
  exists name rest u, token_text name /\ w = name ++ rest /\ v = VObj (s "Parametrized") [named class name; u] /\
    (rest = [] /\ u = VNone /\ cs = [] \/
     exists x y, rest = 61%N :: x /\ (token_text x /\ y = VStr x /\ cs = [] /\ u = VTuple [VStr (s "token"); y] \/
                                    quoted_text x y cs /\ u = VTuple [VStr (s "quoted-string"); y])).

(** ** RFC 7838 *)

(** 3: a protocol is a sequence of bytes.  Bytes that are not allowed in a
    token, and "%", are percent-encoded with uppercase hex digits; notice 1256
    if this was not followed. *)
Definition upper_hex (n c : N) : Prop := ((n < 10)%N /\ c = (48 + n)%N) \/ ((10 <= n < 16)%N /\ c = (65 + (n - 10))%N).
Definition any_hex (n c : N) : Prop := upper_hex n c \/ ((10 <= n < 16)%N /\ c = (97 + (n - 10))%N).
Definition proper_byte (b : N) (x : str) : Prop :=
  is_tchar b = true /\ b <> 37%N /\ x = [b] \/
  (is_tchar b = false \/ b = 37%N) /\ exists hi lo h l, b = (16 * hi + lo)%N /\ upper_hex hi h /\ upper_hex lo l /\ x = [37%N; h; l].
Inductive proper_encoding : str -> str -> Prop :=
| proper_nil : proper_encoding [] []
| proper_cons b x bs xs : proper_byte b x -> proper_encoding bs xs -> proper_encoding (b :: bs) (x ++ xs).
(** What any string stands for: "%" that is not followed by two hex digits
    stands for itself. *)
Inductive decodes : str -> str -> Prop :=
| decodes_nil : decodes [] []
| decodes_char c x b : c <> 37%N -> decodes x b -> decodes (c :: x) (c :: b)
| decodes_pct hi lo h l x b : any_hex hi h -> any_hex lo l -> decodes x b -> decodes (37%N :: h :: l :: x) ((16 * hi + lo)%N :: b)
| decodes_stray x b : ~ (exists hi lo h l y, any_hex hi h /\ any_hex lo l /\ x = h :: l :: y) -> decodes x b -> decodes (37%N :: x) (37%N :: b).
Definition protocol_text : reading := fun w v cs => token_text w /\
  exists bytes correct, decodes w bytes /\ proper_encoding bytes correct /\ v = VBytes bytes /\
    (w = correct /\ cs = [] \/ w <> correct /\ cs = [(1256%N, [(s "actual", VStr w); (s "correct", VStr correct)])]).

(** ** RFC 7230, continued *)

(** 3.2.3: white space that should not be there, notice 1015. *)
Definition bad_space (w : str) (cs : list vcomplaint) : Prop := ows w /\ (w = [] /\ cs = [] \/ w <> [] /\ cs = [(1015%N, [])]).
(** An equals sign, perhaps with such white space. *)
Definition loose_equals (w : str) (cs : list vcomplaint) : Prop :=
  exists a b c1 c2, w = a ++ 61%N :: b /\ bad_space a c1 /\ bad_space b c2 /\ cs = c1 ++ c2.
(** 4: a transfer coding.  Those defined by RFC 7230 have no parameters.  In
    TE, other codings are not named "trailers" and have no parameter "q". *)
Definition own_coding (name : str) : Prop := exists x, In x ["chunked"; "compress"; "deflate"; "gzip"] /\ same_text x name.
Definition coding_param (in_te : bool) : reading := fun w v cs =>
  exists name e x u c1 c2, token_text name /\ (in_te = true -> ~ same_text "q" name) /\ loose_equals e c1 /\ word x u c2 /\
    w = name ++ e ++ x /\ v = VTuple [VStr name; u] /\ cs = c1 ++ c2.
Definition transfer_coding_text (in_te : bool) : reading := fun w v cs =>
  exists name rest ps, token_text name /\ w = name ++ rest /\ v = with_params (named "TransferCoding" name) ps /\
    (own_coding name /\ rest = [] /\ ps = [] /\ cs = [] \/
     ~ own_coding name /\ (in_te = true -> ~ same_text "trailers" name) /\ after_semicolons (coding_param in_te) rest ps cs).
(** 4.3 *)
Definition te_text : reading := fun w v cs =>
  same_text "trailers" w /\ v = named "CaseInsensitive" w /\ cs = [] \/ weighted (transfer_coding_text true) w v cs.
(** 6.7: a name, perhaps with a version after a slash (also products, RFC 7231
    5.5.3). *)
Definition versioned (class : string) : reading := fun w v cs => cs = [] /\ exists name, token_text name /\
  (w = name /\ v = VObj (s "Versioned") [named class name; VNone] \/
   exists version, token_text version /\ w = name ++ 47%N :: version /\ v = VObj (s "Versioned") [named class name; VStr version]).
Definition named_token (class : string) : reading := fun w v cs => token_text w /\ v = named class w /\ cs = [].

(** ** RFC 7235 *)

(** 2.1: a parameter of a challenge or of credentials; notice 1196 if the
    realm is not quoted. *)
Definition auth_param_text : reading := fun w v cs =>
  exists name e x u c1 c2 c3, token_text name /\ loose_equals e c1 /\ w = name ++ e ++ x /\ v = VTuple [named "CaseInsensitive" name; u] /\ cs = c1 ++ c2 ++ c3 /\
    (token_text x /\ u = VStr x /\ c2 = [] /\ (same_text "realm" name /\ c3 = [(1196%N, [])] \/ ~ same_text "realm" name /\ c3 = []) \/
     quoted_text x u c2 /\ c3 = []).
Definition is_token68 (c : N) : bool := is_alpha c || is_digit c || HttpText.among (s "-._~+/") c.
Definition token68_text (w : str) : Prop := exists x y, w = x ++ y /\ all1 is_token68 x /\ all (N.eqb 61) y.
Definition auth_text : reading := fun w v cs =>
  exists scheme rest u, token_text scheme /\ w = scheme ++ rest /\ v = VObj (s "Parametrized") [named "AuthScheme" scheme; u] /\
    (rest = [] /\ u = VObj (s "MultiDict") [VList []] /\ cs = [] \/
     exists sp x, all1 (N.eqb 32) sp /\ rest = sp ++ x /\
       (token68_text x /\ u = VStr x /\ cs = [] \/
        exists ps, list_spec auth_param_text list_shape x (VList ps) cs /\ u = VObj (s "MultiDict") [VList ps])).

(** ** Comments (RFC 7230 3.2.6) and names of programs (RFC 7231 5.5.3) *)

(** What is inside the parentheses, the text read from it (without the
    backslashes), and a notice for each character quoted without need. *)
Inductive inside_comment : str -> str -> list vcomplaint -> Prop :=
| inside_nil : inside_comment [] [] []
| inside_char c x t cs : is_ctext c = true -> inside_comment x t cs -> inside_comment (c :: x) (c :: t) cs
| inside_quoted c x t cs : is_escapable c = true -> inside_comment x t cs ->
    inside_comment (92%N :: c :: x) (c :: t) ((if N.eqb c 40 || N.eqb c 41 || N.eqb c 92 then [] else [(1017%N, [(s "char", VStr [c])])]) ++ cs)
| inside_nested y u cs1 x t cs2 : inside_comment y u cs1 -> inside_comment x t cs2 ->
    inside_comment (40%N :: y ++ 41%N :: x) (40%N :: u ++ 41%N :: t) (cs1 ++ cs2).
Definition comment_text : reading := fun w v cs => exists x t, w = 40%N :: x ++ [41%N] /\ inside_comment x t cs /\ v = VStr t.
(** 3.2.3: required white space, notice 1014 unless it is one space. *)
Definition white_space (w : str) (cs : list vcomplaint) : Prop :=
  all1 is_ws w /\ (w = [32%N] /\ cs = [] \/ w <> [32%N] /\ cs = [(1014%N, [(s "num", VInt (Z.of_nat (List.length w)))])]).
(** Parts, each after something that is left out. *)
Inductive each_after (sep : str -> list vcomplaint -> Prop) (part : reading) : str -> list val -> list vcomplaint -> Prop :=
| no_parts : each_after sep part [] [] []
| part_after g c1 w v c2 ws vs css : sep g c1 -> part w v c2 -> each_after sep part ws vs css -> each_after sep part (g ++ w ++ ws) (v :: vs) (c1 ++ c2 ++ css).
Definition product_or_comment : reading := fun w v cs => versioned "ProductName" w v cs \/ comment_text w v cs.
Definition program_text : reading := fun w v cs =>
  exists p rest u us, w = p ++ rest /\ versioned "ProductName" p u [] /\ each_after white_space product_or_comment rest us cs /\ v = VList (u :: us).

(** ** RFC 6797, 7239 and 7240 *)

(** A part that may be missing; those that are present. *)
Definition perhaps (part : reading) : reading := fun w v cs => part w v cs \/ w = [] /\ v = VNone /\ cs = [].
Definition present (vs : list val) : list val := flat_map (fun v => match v with VNone => [] | _ => [v] end) vs.
Definition some_parts (sep : str -> list vcomplaint -> Prop) (part : reading) : reading := fun w v cs =>
  exists w1 v1 c1 rest vs c2, w = w1 ++ rest /\ perhaps part w1 v1 c1 /\ each_after sep (perhaps part) rest vs c2 /\ v = VList (present (v1 :: vs)) /\ cs = c1 ++ c2.
Definition semicolon (w : str) (cs : list vcomplaint) : Prop := cs = [] /\ exists a b, ows a /\ ows b /\ w = a ++ 59%N :: b.
Definition hsts_directive : reading := fun w v cs =>
  exists name rest u, token_text name /\ w = name ++ rest /\ v = VObj (s "Parametrized") [named "HSTSDirective" name; u] /\
    (rest = [] /\ u = VNone /\ cs = [] \/ exists a b x, ows a /\ ows b /\ rest = a ++ 61%N :: b ++ x /\ word x u cs).
Definition forwarded_pair_text : reading := fun w v cs =>
  exists name x u, token_text name /\ w = name ++ 61%N :: x /\ word x u cs /\ v = VTuple [named "ForwardedParam" name; u].
Definition forwarded_text : reading := some_parts (fun w cs => w = [59%N] /\ cs = []) forwarded_pair_text.
(** RFC 7240 2: a preference or a parameter of it; an empty value is as none. *)
Definition preference_item (class : string) : reading := fun w v cs =>
  exists name rest u, token_text name /\ w = name ++ rest /\ v = VObj (s "Parametrized") [named class name; u] /\
    (rest = [] /\ u = VNone /\ cs = [] \/
     exists x y, rest = 61%N :: x /\ word x y cs /\ (y = VStr [] /\ u = VNone \/ y <> VStr [] /\ u = y)).
Definition after_space (part : reading) : reading := fun w v cs => exists a x, ows a /\ w = a ++ x /\ part x v cs.
Definition preference_text : reading := fun w v cs =>
  exists w1 u c1 rest us c2, w = w1 ++ rest /\ preference_item "Preference" w1 u c1 /\
    each_after (fun g k => k = [] /\ exists a, ows a /\ g = a ++ [59%N]) (perhaps (after_space (preference_item "CaseInsensitive"))) rest us c2 /\
    v = VObj (s "Parametrized") [u; VList us] /\ cs = c1 ++ c2.

(** ** RFC 7231 5.3.2 and 5.3.5 *)

Definition plain_param (no_q : bool) : reading := fun w v cs =>
  exists name x u, token_text name /\ (no_q = true -> ~ same_text "q" name) /\ w = name ++ 61%N :: x /\ word x u cs /\ v = VTuple [named "CaseInsensitive" name; u].
(** A type or range; with an asterisk it also reads as a text. *)
Definition media_range_text (no_q : bool) : reading := fun w v cs =>
  exists t u rest ps k c1 c2, token_text t /\ token_text u /\ w = t ++ 47%N :: u ++ rest /\ after_semicolons (plain_param no_q) rest ps c2 /\
    v = with_params k ps /\ cs = c1 ++ c2 /\
    (u = [42%N] /\ k = VStr (t ++ 47%N :: u) /\ c1 = [] \/ k = named "MediaType" (t ++ 47%N :: u) /\ mistaken (t ++ 47%N :: u) c1).
Definition extension_text : reading := fun w v cs =>
  exists name rest u, token_text name /\ w = name ++ rest /\ v = VTuple [VStr name; u] /\
    (rest = [] /\ u = VNone /\ cs = [] \/ exists x, rest = 61%N :: x /\ word x u cs).
(** After the weight may come more parameters. *)
Definition accept_text : reading := fun w v cs =>
  exists x rest u k c1 c2, media_range_text true x u c1 /\ w = x ++ rest /\ v = VObj (s "Parametrized") [u; VObj (s "MultiDict") [VList k]] /\ cs = c1 ++ c2 /\
    (rest = [] /\ k = [] /\ c2 = [] \/
     exists a b q q_value more ps, ows a /\ ows b /\ same_text "q" q /\ quality q_value /\ rest = a ++ 59%N :: b ++ q ++ 61%N :: q_value ++ more /\
       after_semicolons extension_text more ps c2 /\ k = VTuple [named "CaseInsensitive" (s "q"); VFloat q_value] :: ps).
(** Words of up to eight letters and digits (the first, of letters) with
    hyphens between, or an asterisk. *)
Definition subtag (p : N -> bool) (w : str) : Prop := all p w /\ 1 <= List.length w <= 8.
Definition language_range_text : reading := fun w v cs => v = named "CaseInsensitive" w /\ cs = [] /\
  (w = [42%N] \/ exists x ys, subtag is_alpha x /\ Forall (subtag (fun c => is_alpha c || is_digit c)) ys /\ w = x ++ flat_map (fun y => 45%N :: y) ys).

(** ** Lists of names *)

(** RFC 7231 7.1.4: the asterisk also reads as a name. *)
Definition vary_text : reading := fun w v cs => w = [42%N] /\ v = VStr w /\ cs = [] \/ list_spec (named_token "FieldName") list1_shape w v cs.
(** RFC 7233 2.3: "none" also reads as a unit. *)
Definition accept_ranges_text : reading := fun w v cs =>
  same_text "none" w /\ v = named "CaseInsensitive" w /\ cs = [] \/ list_spec (named_token "RangeUnit") list1_shape w v cs.
