(** Specification: hosts, addresses and URIs, written from RFC 3986 (and
    RFC 6874 for zones) without its grammar: what parts a text has, and what
    each part may be. *)
From Coq Require Import String.
From Verif Require Import Base HttpText.
Open Scope nat_scope.
Open Scope list_scope.
Unset Strict Implicit.
Local Open Scope string_scope.
Local Open Scope list_scope.

(** RFC 3986, section 2: characters. *)
Definition is_hex (c : N) : bool := is_digit c || (65 <=? c)%N && (c <=? 70)%N || (97 <=? c)%N && (c <=? 102)%N.
Definition is_unreserved (c : N) : bool := is_alpha c || is_digit c || HttpText.among (s "-._~") c.
Definition is_sub_delim (c : N) : bool := HttpText.among (s "!$&'()*+,;=") c.
(** Characters of a class, and others written with a percent sign and two
    hexadecimal digits. *)
Inductive encoded (p : N -> bool) : str -> Prop :=
| encoded_nil : encoded p []
| encoded_char c w : p c = true -> encoded p w -> encoded p (c :: w)
| encoded_pct h l w : is_hex h = true -> is_hex l = true -> encoded p w -> encoded p (37%N :: h :: l :: w).

(** Texts with a separator between them. *)
Fixpoint between (sep : N) (l : list str) : str :=
  match l with [] => [] | [x] => x | x :: l' => x ++ sep :: between sep l' end.

(** A number up to 255, without zeros in front of it. *)
Definition byte_text (w : str) : Prop := all1 is_digit w /\ (decimal w <= 255)%N /\ (hd 0%N w = 48%N -> w = [48%N]).
(** RFC 3986, section 3.2.2: four such numbers with dots. *)
Definition ipv4_text (w : str) : Prop := exists l, w = between 46 l /\ List.length l = 4 /\ Forall byte_text l.

(** An IPv6 address is 128 bits: eight groups of 16 bits with colons between
    them, where the last two may be written as an IPv4 address, and where one
    run of one or more groups of zeros may be written as two colons. *)
Definition group_text (w : str) : Prop := all is_hex w /\ 1 <= List.length w <= 4.
Definition groups_text (n : nat) (w : str) : Prop := exists l, Forall group_text l /\
  (w = between 58 l /\ n = List.length l \/ exists x, ipv4_text x /\ w = between 58 (l ++ [x]) /\ n = List.length l + 2).
Definition ipv6_text (w : str) : Prop := groups_text 8 w \/
  exists l m x, Forall group_text l /\ groups_text m x /\ w = between 58 l ++ s "::" ++ x /\ List.length l + m <= 7.

(** In brackets: an IPv6 address, perhaps with a zone (RFC 6874), or an
    address of a kind yet to come.  Otherwise a registered name, which may be
    empty, or an IPv4 address. *)
Definition zone_text (w : str) : Prop := w <> [] /\ encoded is_unreserved w.
Definition future_text (w : str) : Prop := exists c x y, (c = 86 \/ c = 118)%N /\ w = c :: x ++ 46%N :: y /\
  all1 is_hex x /\ all1 (fun c => is_unreserved c || is_sub_delim c || (c =? 58)%N) y.
Definition in_brackets (w : str) : Prop :=
  ipv6_text w \/ (exists x z, w = x ++ s "%25" ++ z /\ ipv6_text x /\ zone_text z) \/ future_text w.
Definition name_text (w : str) : Prop := encoded (fun c => is_unreserved c || is_sub_delim c) w.
Definition host_text (w : str) : Prop := name_text w \/ exists x, w = 91%N :: x ++ [93%N] /\ in_brackets x.

(** [perhaps_text before L w]: nothing, or the sign [before] and an [L]. *)
Definition perhaps_text (before : N) (L : str -> Prop) (w : str) : Prop := w = [] \/ exists x, w = before :: x /\ L x.
Definition host_and_port (w : str) : Prop := exists h p, w = h ++ p /\ host_text h /\ perhaps_text 58 (all is_digit) p.
Definition user_text (w : str) : Prop := encoded (fun c => is_unreserved c || is_sub_delim c || (c =? 58)%N) w.
Definition authority_text (w : str) : Prop := exists u h, w = u ++ h /\ (u = [] \/ exists x, u = x ++ [64%N] /\ user_text x) /\ host_and_port h.

(** RFC 3986, section 3.3: segments with slashes between them. *)
Definition is_pchar (c : N) : bool := is_unreserved c || is_sub_delim c || (c =? 58)%N || (c =? 64)%N.
Definition path_text (w : str) : Prop := encoded (fun c => is_pchar c || (c =? 47)%N) w.
Definition starts (x w : str) : Prop := exists y, w = x ++ y.
(** After an authority the path is empty or starts with a slash; without one
    it does not start with two. *)
Definition located (w : str) : Prop := exists a p, w = a ++ p /\ path_text p /\
  ((exists x, a = s "//" ++ x /\ authority_text x) /\ (p = [] \/ starts (s "/") p) \/ a = [] /\ ~ starts (s "//") p).
(** Section 4.2: without a scheme, no colon may come before the first slash,
    lest the text before it look like a scheme. *)
Definition looks_schemed (w : str) : Prop := exists x y, w = x ++ 58%N :: y /\ ~ In 47%N x.
Definition query_text (w : str) : Prop := encoded (fun c => is_pchar c || (c =? 47)%N || (c =? 63)%N) w.
Definition scheme_text (w : str) : Prop := exists c x, w = c :: x /\ is_alpha c = true /\
  all (fun c => is_alpha c || is_digit c || HttpText.among (s "+-.") c) x.

(** Sections 3, 4.1, 4.2, 4.3, and RFC 7230, section 2.7. *)
Definition absolute_text (w : str) : Prop := exists x h q, w = x ++ 58%N :: h ++ q /\ scheme_text x /\ located h /\ perhaps_text 63 query_text q.
Definition uri_text (w : str) : Prop := exists x f, w = x ++ f /\ absolute_text x /\ perhaps_text 35 query_text f.
Definition partial_text (w : str) : Prop := exists h q, w = h ++ q /\ located h /\ ~ looks_schemed h /\ perhaps_text 63 query_text q.
Definition relative_text (w : str) : Prop := exists x f, w = x ++ f /\ partial_text x /\ perhaps_text 35 query_text f.
Definition reference_text (w : str) : Prop := uri_text w \/ relative_text w.

(** RFC 7230, section 5.3: targets of requests. *)
Definition origin_text (w : str) : Prop := exists p q, w = p ++ q /\ path_text p /\ starts (s "/") p /\ perhaps_text 63 query_text q.
Definition target_text (w : str) : Prop := origin_text w \/ absolute_text w \/ authority_text w \/ w = s "*".
