(** Python's operations on parsed values: truth, equality, order, attributes,
    and the multi-valued dictionaries (httpolice/structure.py). *)
From Coq Require Import ZifyBool ZifyNat ZifyN String.
From Verif Require Import Base Grammar Actions Structure Header.
Open Scope nat_scope.
Open Scope list_scope.
Unset Strict Implicit.

(** ** Classes *)

(** The subclasses of [CaseInsensitive] (httpolice/structure.py:148-403). *)
Definition ci_classes : list str := map s [
  "CaseInsensitive"; "FieldName"; "TransferCoding"; "ContentCoding"; "ConnectionOption"; "MediaType"; "LanguageTag";
  "Charset"; "RangeUnit"; "CacheDirective"; "AuthScheme"; "HSTSDirective"; "Preference"; "ForwardedParam"]%string.
(** The other subclasses of [ProtocolString], which compare as plain strings. *)
Definition plain_classes : list str := map s [
  "ProtocolString"; "HTTPVersion"; "Method"; "UpgradeToken"; "ProductName"; "AltSvcParam"]%string.
(** The named tuples and their fields (httpolice/structure.py:56, 133, 208, 305,
    327-359, 381 for [ExtValue]). *)
Definition tuple_classes : list (str * list str) := map (fun x => (s (fst x), map s (snd x))) [
  ("Parametrized", ["item"; "param"]); ("Versioned", ["item"; "version"]); ("HeaderEntry", ["name"; "value"]);
  ("EntityTag", ["weak"; "opaque_tag"]); ("RangeSpecifier", ["unit"; "ranges"]); ("ContentRange", ["unit"; "range"]);
  ("WarningValue", ["code"; "agent"; "text"; "date"]); ("ExtValue", ["charset"; "language"; "value_bytes"])]%string.
Definition mem_class (c : str) (l : list str) : bool := existsb (str_eqb c) l.
Fixpoint fields_of (t : list (str * list str)) (c : str) : option (list str) :=
  match t with [] => None | (k, fs) :: t' => if str_eqb k c then Some fs else fields_of t' c end.
Definition is_tuple_class (c : str) : bool := match fields_of tuple_classes c with Some _ => true | None => false end.
(** Classes whose [__eq__] compares the first component with what is not a tuple
    (httpolice/structure.py:62-65, 349-352). *)
Definition is_transparent (c : str) : bool := str_eqb c (s "Parametrized") || str_eqb c (s "WarningValue").

(** ** Scalars *)

(** The string that a value is, if it is one. *)
Definition str_like (v : val) : option pystr :=
  match v with
  | VStr x => Some (Plain x)
  | VObj c [VStr x] => if mem_class c ci_classes then Some (CI x) else if mem_class c plain_classes then Some (Plain x) else None
  | _ => None
  end.
(** [isinstance(v, str)]. *)
Definition is_str (v : val) : bool := match str_like v with Some _ => true | None => false end.
(** [float(text)] in thousandths, for the texts that [qvalue] matches
    (httpolice/syntax/rfc7231.py): up to three decimals. *)
Definition thousandths (x : str) : Z :=
  match split_c 46 x with
  | [whole] => Z.of_N (dec_value whole) * 1000
  | whole :: frac :: _ => Z.of_N (dec_value whole) * 1000 + Z.of_N (dec_value (firstn 3 (frac ++ s "000")))
  | [] => 0
  end.
(** The number that a value is, if it is one, in thousandths.  Truth values are
    numbers; [WarnCode] is a subclass of [int] (httpolice/structure.py:361). *)
Definition number_like (v : val) : option Z :=
  match v with
  | VInt z => Some (z * 1000)%Z
  | VBool b => Some (if b then 1000 else 0)%Z
  | VFloat x => Some (thousandths x)
  | VObj c [VStr x] => if str_eqb c (s "WarnCode") then match int_of x with VInt z => Some (z * 1000)%Z | _ => None end else None
  | _ => None
  end.
(** A point in time, in microseconds: [datetime] objects that the grammar made,
    which have whole seconds, and those made from the clock (see [instant]). *)
Definition seconds_of_day (h m x : Z) : Z := ((h * 60 + m) * 60 + x)%Z.
Definition micro : Z := 1000000%Z.
Definition time_like (v : val) : option Z :=
  match v with
  | VObj c [VInt y; VInt mo; VInt d; VInt h; VInt mi; VInt x] =>
      if str_eqb c (s "datetime") then Some ((ordinal y mo d * 86400 + seconds_of_day h mi x) * micro)%Z else None
  | VObj c [VInt z] => if str_eqb c (s "instant") then Some z else None
  | _ => None
  end.
(** A [datetime] given by its number of microseconds. *)
Definition instant (z : Z) : val := VObj (s "instant") [VInt z].

(** ** Equality *)

(** What [other == v] falls back to, when [other] is a scalar and [v] is a
    [Parametrized] or [WarningValue]: the reflected comparison looks inside. *)
Fixpoint peel (v : val) : val :=
  match v with
  | VObj c (x :: l) => if is_transparent c then peel x else v
  | _ => v
  end.
(** [==] of values that are neither tuples nor lists. *)
Definition scalar_eq (a b : val) : bool :=
  match str_like a, str_like b with
  | Some x, Some y => py_eq x y
  | Some _, None | None, Some _ => false
  | None, None =>
      match number_like a, number_like b with
      | Some x, Some y => Z.eqb x y
      | Some _, None | None, Some _ => false
      | None, None =>
          match time_like a, time_like b with
          | Some x, Some y => Z.eqb x y
          | Some _, None | None, Some _ => false
          | None, None => if val_dec a b then true else false
          end
      end
  end.
Definition items_of (v : val) : option (list val) :=
  match v with
  | VTuple l => Some l
  | VObj c l => if is_tuple_class c then Some l else None
  | _ => None
  end.
(** [a == b].  Tuples compare by components, also tuples of different classes;
    a [MultiDict] by its sequence of pairs (httpolice/structure.py:101-104);
    [Unavailable] by what it wraps, unless that is [None], and it does not leave
    the comparison to what is on the right (httpolice/structure.py:39-46). *)
Fixpoint veq (a b : val) {struct a} : bool :=
  let all2 := fix all2 (l m : list val) {struct l} : bool :=
    match l, m with
    | [], [] => true
    | x :: l', y :: m' => veq x y && all2 l' m'
    | _, _ => false
    end in
  match a with
  | VTuple l => match items_of b with Some m => all2 l m | None => false end
  | VObj c l =>
      if is_tuple_class c then
        match items_of b with
        | Some m => all2 l m
        | None => if is_transparent c then match l with x :: _ => veq x b | [] => false end else false
        end
      else if str_eqb c (s "MultiDict") then
        match peel b with VObj d m => str_eqb d (s "MultiDict") && all2 l m | _ => false end
      else scalar_eq a (peel b)
  | VList l => match peel b with VList m => all2 l m | _ => false end
  | VUnavailable x => match b with VUnavailable y => negb (is_none x) && veq x y | _ => false end
  | _ => scalar_eq a (peel b)
  end.
(** On what is equal to a text of ASCII, the two ways to ignore case agree. *)
Lemma lower_ascii t : forall x, forallb (fun c => (c <? 128)%N) x = true -> (map lower_c t = x <-> lower t = x).
Proof.
  unfold lower. induction t as [|c t IH]; intros x A; [reflexivity|]. destruct x as [|d x]; cbn [map]; [split; discriminate|]. cbn [forallb] in A. apply andb_true_iff in A. destruct A as [D A].
  specialize (IH x A). assert (Q : lower_c c = d <-> lower1 c = d).
  { unfold lower_c, lower1, is_upper. destruct ((65 <=? c)%N && (c <=? 90)%N) eqn:U; cbn [orb]; [reflexivity|]. destruct ((192 <=? c)%N && _ && _) eqn:V; [|reflexivity]. lia. }
  split; intro H; injection H as H1 H2; f_equal; tauto.
Qed.
(** [v in [..]]: identity is not modelled apart from equality. *)
Definition mem_val (v : val) (l : list val) : bool := existsb (fun x => veq x v) l.

(** ** Truth *)

(** [bool(v)]. *)
Definition truthy_val (v : val) : bool :=
  match v with
  | VNone => false
  | VBool b => b
  | VStr x | VBytes x => match x with [] => false | _ => true end
  | VList l | VTuple l => match l with [] => false | _ => true end
  | VUnavailable _ | VSkip | VBad => true
  | VInt _ | VFloat _ => match number_like v with Some z => negb (Z.eqb z 0) | None => true end
  | VObj c l =>
      if is_tuple_class c then match l with [] => false | _ => true end
      else if str_eqb c (s "MultiDict") then match l with [VList []] => false | _ => true end
      else match str_like v with
           | Some (Plain x) | Some (CI x) => match x with [] => false | _ => true end
           | None => match number_like v with Some z => negb (Z.eqb z 0) | None => true end
           end
  end.

(** ** Order *)

(** [<], [>] and so on of numbers and of times; [None] is [TypeError]. *)
Definition order (a b : val) : option Datatypes.comparison :=
  match number_like a, number_like b with
  | Some x, Some y => Some (Z.compare x y)
  | _, _ =>
      match time_like a, time_like b with
      | Some x, Some y => Some (Z.compare x y)
      | _, _ => None
      end
  end.

(** ** Attributes *)

Fixpoint nth_field (name : str) (fs : list str) (l : list val) : option val :=
  match fs, l with
  | f :: fs', v :: l' => if str_eqb f name then Some v else nth_field name fs' l'
  | _, _ => None
  end.
(** [getattr(v, name)] for the fields of named tuples; [None] is
    [AttributeError]. *)
Definition attr (name : str) (v : val) : option val :=
  match v with
  | VObj c l => match fields_of tuple_classes c with Some fs => nth_field name fs l | None => None end
  | _ => None
  end.

(** ** [MultiDict] *)

Fixpoint all_pairs (l : list val) : option (list (val * val)) :=
  match l with
  | [] => Some []
  | v :: l' =>
      match unpack2 v, all_pairs l' with
      | Some kv, Some r => Some (kv :: r)
      | _, _ => None
      end
  end.
(** The sequence of pairs of a [MultiDict]; [None] if it is not one. *)
Definition pairs_of (v : val) : option (list (val * val)) :=
  match v with
  | VObj c [VList l] => if str_eqb c (s "MultiDict") then all_pairs l else None
  | _ => None
  end.
