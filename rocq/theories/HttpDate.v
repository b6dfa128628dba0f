(** Specification: the calendar and the three HTTP date formats (RFC 7231,
    section 7.1.1.1). *)
From Coq Require Import String.
From Verif Require Import Base.
Unset Strict Implicit.

(** * The Gregorian calendar *)

Section Calendar.
Local Open Scope Z_scope.
Definition leap (y : Z) : Prop := (4 | y) /\ (~ (100 | y) \/ (400 | y)).
Inductive month_length (y : Z) : Z -> Z -> Prop :=
| ml_31 m : In m [1; 3; 5; 7; 8; 10; 12] -> month_length y m 31
| ml_30 m : In m [4; 6; 9; 11] -> month_length y m 30
| ml_29 : leap y -> month_length y 2 29
| ml_28 : ~ leap y -> month_length y 2 28.

(** [calendar y m d k]: this day exists, and it is a Monday ([k] = 0), ...,
    a Sunday ([k] = 6).  1 January of the year 1 is a Monday. *)
Inductive calendar : Z -> Z -> Z -> Z -> Prop :=
| cal_first : calendar 1 1 1 0
| cal_day y m d k n : calendar y m d k -> month_length y m n -> d < n -> calendar y m (d + 1) ((k + 1) mod 7)
| cal_month y m d k : calendar y m d k -> month_length y m d -> m < 12 -> calendar y (m + 1) 1 ((k + 1) mod 7)
| cal_year y d k : calendar y 12 d k -> month_length y 12 d -> calendar (y + 1) 1 1 ((k + 1) mod 7).
End Calendar.

(** * Formats *)

Local Open Scope N_scope.
(** Decimal digits. *)
Definition one (n : N) : str := [48 + n].
Definition two (n : N) : str := [48 + n / 10; 48 + n mod 10].
Definition four (n : N) : str := two (n / 100) ++ two (n mod 100).

Definition weekdays : list str := map s ["Mon"; "Tue"; "Wed"; "Thu"; "Fri"; "Sat"; "Sun"]%string.
Definition long_weekdays : list str :=
  map s ["Monday"; "Tuesday"; "Wednesday"; "Thursday"; "Friday"; "Saturday"; "Sunday"]%string.
Definition months : list str :=
  map s ["Jan"; "Feb"; "Mar"; "Apr"; "May"; "Jun"; "Jul"; "Aug"; "Sep"; "Oct"; "Nov"; "Dec"]%string.

(** The fields of a date as written; not necessarily a real date. *)
Record fields := Fields {
  f_weekday : N;      (* Monday = 0 *)
  f_day : N;
  f_month : N;        (* January = 1 *)
  f_year : N;
  f_hour : N;
  f_minute : N;
  f_second : N
}.
Definition in_range (f : fields) : Prop :=
  f_weekday f < 7 /\ f_day f < 100 /\ 1 <= f_month f <= 12 /\ f_year f < 10000 /\
  f_hour f < 100 /\ f_minute f < 100 /\ f_second f < 100.

Definition weekday_text (f : fields) : str := nth (N.to_nat (f_weekday f)) weekdays [].
Definition long_weekday_text (f : fields) : str := nth (N.to_nat (f_weekday f)) long_weekdays [].
Definition month_text (f : fields) : str := nth (N.to_nat (f_month f - 1)) months [].
Definition time_text (f : fields) : str := two (f_hour f) ++ s ":" ++ two (f_minute f) ++ s ":" ++ two (f_second f).

(** Sun, 06 Nov 1994 08:49:37 GMT *)
Definition imf_fixdate (f : fields) : str :=
  weekday_text f ++ s ", " ++ two (f_day f) ++ s " " ++ month_text f ++ s " " ++ four (f_year f) ++ s " " ++
  time_text f ++ s " GMT".
(** Sunday, 06-Nov-94 08:49:37 GMT *)
Definition rfc850 (f : fields) : str :=
  long_weekday_text f ++ s ", " ++ two (f_day f) ++ s "-" ++ month_text f ++ s "-" ++ two (f_year f mod 100) ++ s " " ++
  time_text f ++ s " GMT".
(** Sun Nov  6 08:49:37 1994 *)
Definition asctime (day : str) (f : fields) : str :=
  weekday_text f ++ s " " ++ month_text f ++ s " " ++ day ++ s " " ++ time_text f ++ s " " ++ four (f_year f).

(** [written_as w f obsolete]: [w] is an HTTP date with these fields.  A year
    of two digits is taken to be in the 20th century. *)
Inductive written_as (w : str) (f : fields) : bool -> Prop :=
| wa_imf : w = imf_fixdate f -> written_as w f false
| wa_rfc850 : w = rfc850 f -> 1900 <= f_year f < 2000 -> written_as w f true
| wa_asctime2 : w = asctime (two (f_day f)) f -> written_as w f true
| wa_asctime1 : w = asctime (s " " ++ one (f_day f)) f -> f_day f < 10 -> written_as w f true.

(** The date exists; the time exists (leap seconds are not supported). *)
Definition real_date (f : fields) : Prop :=
  exists k, calendar (Z.of_N (f_year f)) (Z.of_N (f_month f)) (Z.of_N (f_day f)) k.
Definition real_time (f : fields) : Prop := f_hour f < 24 /\ f_minute f < 60 /\ f_second f < 60.
Definition right_weekday (f : fields) : Prop :=
  calendar (Z.of_N (f_year f)) (Z.of_N (f_month f)) (Z.of_N (f_day f)) (Z.of_N (f_weekday f)).
