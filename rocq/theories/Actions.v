(** The functions of httpolice/syntax/*.py that are given to [<<]: what they
    return and what they complain about.

    The two that call the parser again ([_check_alt_authority],
    [_process_params]) are parameters here.  What they use from Python's
    standard library (datetime, urllib.parse, UTF-8) is modelled below. *)
From Coq Require Import String.
From Verif Require Import Base Earley Grammar Syntax.
Local Open Scope Z_scope.
Local Open Scope list_scope.
Unset Strict Implicit.

(** * Standard library *)

(** ['%d' % n]. *)
Fixpoint dec_digits (fuel : nat) (n : N) (acc : str) : str :=
  match fuel with
  | O => acc
  | S fuel' =>
      let acc' := (48 + N.modulo n 10)%N :: acc in
      if (n <? 10)%N then acc' else dec_digits fuel' (N.div n 10) acc'
  end.
Definition dec_str (n : N) : str := dec_digits (S (N.size_nat n)) n [].
Definition show (z : Z) : str :=
  match z with
  | Z0 => s "0"
  | Zpos p => dec_str (Npos p)
  | Zneg p => s "-" ++ dec_str (Npos p)
  end.
(** ['%02d'], ['%04d']. *)
Definition pad (width : nat) (z : Z) : str :=
  let x := show z in repeat 48%N (width - List.length x) ++ x.

(** datetime's calendar (proleptic Gregorian, years 1 to 9999). *)
Definition is_leap (y : Z) : bool :=
  (y mod 4 =? 0) && (negb (y mod 100 =? 0) || (y mod 400 =? 0)).
Definition days_in_month (y m : Z) : Z :=
  if m =? 2 then (if is_leap y then 29 else 28)
  else if (m =? 4) || (m =? 6) || (m =? 9) || (m =? 11) then 30 else 31.
Fixpoint days_before (y : Z) (months : nat) : Z :=
  match months with
  | O => 0
  | S k => days_before y k + days_in_month y (Z.of_nat months)
  end.
Definition days_before_year (y : Z) : Z :=
  let z := y - 1 in z * 365 + z / 4 - z / 100 + z / 400.
(** [date.toordinal], [date.weekday]. *)
Definition ordinal (y m d : Z) : Z := days_before_year y + days_before y (Z.to_nat (m - 1)) + d.
Definition weekday (y m d : Z) : Z := (ordinal y m d + 6) mod 7.
(** The conditions under which [date(y, m, d)], [time(h, m, s)] succeed. *)
Definition valid_date (y m d : Z) : bool :=
  (1 <=? y) && (y <=? 9999) && (1 <=? m) && (m <=? 12) && (1 <=? d) && (d <=? days_in_month y m).
Definition valid_time (h m x : Z) : bool :=
  (0 <=? h) && (h <=? 23) && (0 <=? m) && (m <=? 59) && (0 <=? x) && (x <=? 59).

(** [urllib.parse.unquote_to_bytes]. *)
Definition hex_digit (c : N) : option N :=
  (if (48 <=? c) && (c <=? 57) then Some (c - 48)
   else if (65 <=? c) && (c <=? 70) then Some (c - 55)
   else if (97 <=? c) && (c <=? 102) then Some (c - 87)
   else None)%N.
Fixpoint pct_decode (x : str) : str :=
  match x with
  | [] => []
  | c :: x' =>
      if (c =? 37)%N then
        match x' with
        | h :: l :: x'' =>
            match hex_digit h, hex_digit l with
            | Some a, Some b => (16 * a + b)%N :: pct_decode x''
            | _, _ => c :: pct_decode x'
            end
        | _ => c :: pct_decode x'
        end
      else c :: pct_decode x'
  end.
(** [urllib.parse.quote(c, safe='').upper()] of a byte that is not left as it
    is. *)
Definition hex_char (n : N) : N := (if n <? 10 then 48 + n else 55 + n)%N.
Definition pct_encode (c : N) : str := [37; hex_char (c / 16); hex_char (c mod 16)]%N.

(** Does [b.decode('utf-8')] succeed? *)
Definition utf8_cont (c : N) : bool := ((128 <=? c) && (c <=? 191))%N.
Fixpoint utf8_ok (x : str) : bool :=
  match x with
  | [] => true
  | a :: x1 =>
      if (a <? 128)%N then utf8_ok x1
      else if ((194 <=? a) && (a <=? 223))%N then
        match x1 with b :: x2 => utf8_cont b && utf8_ok x2 | _ => false end
      else if ((224 <=? a) && (a <=? 239))%N then
        match x1 with
        | b :: c :: x3 =>
            utf8_cont b && utf8_cont c
            && (if (a =? 224)%N then (160 <=? b)%N else true)
            && (if (a =? 237)%N then (b <=? 159)%N else true) && utf8_ok x3
        | _ => false
        end
      else if ((240 <=? a) && (a <=? 244))%N then
        match x1 with
        | b :: c :: d :: x4 =>
            utf8_cont b && utf8_cont c && utf8_cont d
            && (if (a =? 240)%N then (144 <=? b)%N else true)
            && (if (a =? 244)%N then (b <=? 143)%N else true) && utf8_ok x4
        | _ => false
        end
      else false
  end.

(** * The functions *)

(** httpolice/structure.py:53-54 *)
Definition okay (v : val) : bool := match v with VNone | VUnavailable _ => false | _ => true end.

(** httpolice/syntax/rfc7231.py:19-25 *)
Definition DAY_NAMES : list str :=
  map s ["Monday"; "Tuesday"; "Wednesday"; "Thursday"; "Friday"; "Saturady"; "Sunday"]%string.
Definition MONTH_NAMES : list str :=
  map s ["Jan"; "Feb"; "Mar"; "Apr"; "May"; "Jun"; "Jul"; "Aug"; "Sep"; "Oct"; "Nov"; "Dec"]%string.
Definition nth_name (l : list str) (i : Z) : str := nth (Z.to_nat i) l [].

(** httpolice/syntax/rfc7231.py:57-64 *)
Definition to_date (d m y : Z) : val * list vcomplaint :=
  if valid_date y m d then (VObj (s "date") [VInt y; VInt m; VInt d], [])
  else
    let date_s := show d ++ s " " ++ nth_name MONTH_NAMES (m - 1) ++ s " " ++ show y in
    (VUnavailable (VStr date_s), [(1222%N, [(s "date", VStr date_s)])]).

(** httpolice/syntax/rfc7231.py:83-93 *)
Definition to_time (h m x : Z) : val * list vcomplaint :=
  if valid_time h m x then (VObj (s "time") [VInt h; VInt m; VInt x], [])
  else
    let time_s := pad 2 h ++ s ":" ++ pad 2 m ++ s ":" ++ pad 2 x in
    (VUnavailable (VStr time_s), [(1223%N, [(s "time", VStr time_s)])]).

(** [str(x)] of a date, a time or an [Unavailable]. *)
Definition str_of (v : val) : str :=
  match v with
  | VUnavailable (VStr x) => x
  | VObj c [VInt a; VInt b; VInt d] =>
      if str_eqb c (s "date") then pad 4 a ++ s "-" ++ pad 2 b ++ s "-" ++ pad 2 d
      else pad 2 a ++ s ":" ++ pad 2 b ++ s ":" ++ pad 2 d
  | _ => []
  end.

(** httpolice/syntax/rfc7231.py:103-106 *)
Definition to_datetime (dow d t : val) : val :=
  match d, t with
  | VObj _ [VInt y; VInt m; VInt d'], VObj _ [VInt h; VInt mi; VInt x] =>
      VTuple [dow; VObj (s "datetime") [VInt y; VInt m; VInt d'; VInt h; VInt mi; VInt x]]
  | _, _ =>
      if okay d && okay t then VBad
      else VTuple [dow; VUnavailable (VStr (str_of d ++ s " " ++ str_of t))]
  end.

(** httpolice/syntax/rfc7231.py:161-168.  [strftime('%Y')] is taken to give
    four digits. *)
Definition check_day_of_week (r : val) : val * list vcomplaint :=
  match r with
  | VTuple [VInt claimed; VObj c [VInt y; VInt m; VInt d; h; mi; x]] =>
      let r' := VObj c [VInt y; VInt m; VInt d; h; mi; x] in
      if weekday y m d =? claimed then (r', [])
      else (r', [(1108%N, [(s "date", VStr (pad 4 y ++ s "-" ++ pad 2 m ++ s "-" ++ pad 2 d));
                           (s "claimed", VStr (nth_name DAY_NAMES claimed));
                           (s "actual", VStr (nth_name DAY_NAMES (weekday y m d)))])])
  | VTuple [VInt _; VUnavailable x] => (VUnavailable x, [])
  | _ => (VBad, [])
  end.

Definition is_none (v : val) : bool := match v with VNone => true | _ => false end.
Definition not_none (l : list val) : list val := filter (fun v => negb (is_none v)) l.

(** httpolice/syntax/common.py:18-28; the known media types are named by
    their text. *)
Definition bad_media_types : list (str * str) :=
  [(s "application/text", s "text/plain"); (s "plain/text", s "text/plain");
   (s "text/json", s "application/json")].
Definition media_type_obj (x : str) : val := VObj (s "MediaType") [VStr x].
Definition check_media_type (v : val) : val * list vcomplaint :=
  match v with
  | VObj _ [VStr x] =>
      match find (fun p => str_eqb (fst p) (map lower_c x)) bad_media_types with
      | Some p => (v, [(1282%N, [(s "bad", v); (s "good", media_type_obj (snd p))])])
      | None => (v, [])
      end
  | _ => (VBad, [])
  end.

(** httpolice/syntax/rfc7838.py:19-33 *)
Definition encode_protocol_id (decoded : str) : str :=
  flat_map (fun c => if N.testbit (bits_of (minus tchar (lit "%"))) c then [c] else pct_encode c) decoded.
Definition check_protocol_id (encoded : str) : val * list vcomplaint :=
  let decoded := pct_decode encoded in
  let correct := encode_protocol_id decoded in
  (VBytes decoded,
   if str_eqb encoded correct then []
   else [(1256%N, [(s "actual", VStr encoded); (s "correct", VStr correct)])]).

(** httpolice/syntax/rfc8187.py:28-37; the UnicodeError itself is left out. *)
Definition check_ext_value (v : val) : val * list vcomplaint :=
  match v with
  | VObj _ [VObj c [VStr charset]; lang; VBytes b] =>
      if str_eqb (map lower_c charset) (s "utf-8") then
        (v, if utf8_ok b then []
            else [(1254%N, [(s "charset", VObj c [VStr charset]); (s "error", VObj (s "UnicodeError") [])])])
      else (v, [(1253%N, [(s "charset", VObj c [VStr charset])])])
  | _ => (VBad, [])
  end.

Definition parametrized (a b : val) : val := VObj (s "Parametrized") [a; b].
Definition multidict (l : list val) : val := VObj (s "MultiDict") [VList l].

(** All of them.  The line numbers are with [pyf] in Grammar.v.  Arguments of
    a type that the grammar never passes give [VBad]. *)
Definition pyfun (nested : pyf -> list val -> val * list vcomplaint) (p : pyf) (args : list val)
  : val * list vcomplaint :=
  match p, args with
  | PCheckMediaType, [v] => check_media_type v
  | PCheckSensible chars, [VStr [c]] =>
      (VStr [c], if existsb (N.eqb c) chars then [] else [(1017%N, [(s "char", VStr [c])])])
  | PStripParens, [VStr x] => (VStr (removelast (tl x)), [])
  | PJustOneSpace, [VStr x] =>
      (VStr x, if str_eqb x (s " ") then [] else [(1014%N, [(s "num", VInt (Z.of_nat (List.length x)))])])
  | PBadWhitespace, [VStr x] => (VStr x, match x with [] => [] | _ => [(1015%N, [])] end)
  | PCollectElements, [VList xs] =>
      let r := not_none xs in
      (VList r, if negb (Nat.eqb (List.length r) (List.length xs)) && Nat.ltb 1 (List.length xs)
                then [(1151%N, [])] else [])
  | PSingleton, [x] => (VList [x], [])
  | PEmptyParams, [c] => (parametrized c (multidict []), [])
  | PToDate, [VInt d; VInt m; VInt y] => to_date d m y
  | PToTime, [VInt h; VInt m; VInt x] => to_time h m x
  | PToDatetime, [dow; d; t] => (to_datetime dow d t, [])
  | PYear19, [VStr x] => (int_of (s "19" ++ x), [])
  | PFromAsctime, [dow; VTuple [VInt m; VInt d]; t; VInt y] =>
      let (dt, cs) := to_date d m y in (to_datetime dow dt t, cs)
  | PObsoleteDate, [r] => (r, [(1107%N, [])])
  | PCheckDayOfWeek, [r] => check_day_of_week r
  | PPrependQ, [q; VList xs] =>
      (multidict (VTuple [VObj (s "CaseInsensitive") [VStr (s "q")]; q] :: xs), [])
  | PNoBackslashes, [VStr x] => (VStr x, if existsb (N.eqb 92) x then [(1119%N, [])] else [])
  | PWellFormed1, [VInt a; VNone] => (VTuple [VInt a; VNone], [])
  | PWellFormed1, [VInt a; VInt b] => (VTuple [VInt a; VInt b], if b <? a then [(1133%N, [])] else [])
  | PSuffixRange, [x] => (VTuple [VNone; x], [])
  | PWellFormed2, [VObj c [u; VTuple [bounds; complete]]] =>
      (VObj c [u; VTuple [bounds; complete]],
       match bounds, complete with
       | VTuple [VInt a; VInt b], VInt n => if (b <? a) || (n <=? b) then [(1148%N, [])] else []
       | VTuple [VInt a; VInt b], _ => if b <? a then [(1148%N, [])] else []
       | _, _ => []
       end)
  | PCheckRealm, [VObj c [VStr k]; VTuple [VStr symbol; v]] =>
      (VTuple [VObj c [VStr k]; v],
       if str_eqb (map lower_c k) (s "realm") && negb (str_eqb symbol (s "quoted-string"))
       then [(1196%N, [])] else [])
  | PHSTSCollect, [VList xs] => (VList (not_none xs), [])
  | PRemoveEmpty, [VList xs] => (VList (not_none xs), [])
  | PNormalizeEmptyValue, [VTuple [name; v]] =>
      (parametrized name (match v with VStr [] => VNone | _ => v end), [])
  | PNormalizeEmptyValue, [name] => (parametrized name VNone, [])
  | PCheckProtocolId, [VStr x] => check_protocol_id x
  | PForceBytes, [VStr x] => (VBytes (map (fun c => if (c <? 256)%N then c else 63%N) x), [])
  | PPctDecode, [VBytes x] => (VBytes (pct_decode x), [])
  | PCheckExtValue, [v] => check_ext_value v
  | PCheckAltAuthority, _ | PProcessParams, _ => nested p args
  | _, _ => (VBad, [])
  end.
