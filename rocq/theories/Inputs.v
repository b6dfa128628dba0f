(** Model of httpolice/inputs/streams.py: pairing of one-directional files,
    combined files, and the interleaving of connections by time. *)
From Coq Require Import ZifyBool ZifyNat ZifyN.
From Verif Require Import Base Text Structure Stream Framing.
Open Scope nat_scope.
Unset Strict Implicit.

(** * Time *)

(** Naive [datetime] values are numbers of seconds since 0001-01-01T00:00:00.
    This is [datetime.max], without its fraction of a second: the dates of HTTP
    and of tcpflow have none. *)
Definition max_time : Z := 315537897599.
(** 1970-01-01T00:00:00. *)
Definition unix_epoch : Z := 62135596800.

(** What [_exchange_time] looks at: the value of Date of the request if there
    is a request and it is okay, and the values of Date and Age of responses. *)
Record dated := mkDated {
  d_request : option Z;
  d_responses : list (option Z * option N)
}.
(** The time of an exchange: known, not known, or an exception. *)
Inductive clock := Known (t : Z) | Unknown | Overflows.
(** [date + timedelta(seconds=age)] raises [OverflowError] when the result is
    out of range, as the constructor of [timedelta] does with numbers that are
    yet greater. *)
Definition add_age (date : Z) (age : N) : clock :=
  if (date + Z.of_N age <=? max_time)%Z then Known (date + Z.of_N age) else Overflows.
Fixpoint responses_clock (l : list (option Z * option N)) : clock :=
  match l with
  | [] => Unknown
  | (Some date, Some age) :: _ => add_age date age
  | (Some date, None) :: _ => Known date
  | (None, _) :: l' => responses_clock l'
  end.
(** [_exchange_time] (httpolice/inputs/streams.py:303-316), without [hint]. *)
Definition clock_of (x : dated) : clock :=
  match d_request x with
  | Some date => Known date
  | None => responses_clock (d_responses x)
  end.

(** * Interleaving (httpolice/inputs/streams.py:221-300) *)

Section Rearrange.
Context {E : Type}.
(** The time in an exchange itself. *)
Variable own_time : E -> clock.

(** [_exchange_time(exchange, hint)]; [None] is the exception. *)
Definition exchange_time (e : E) (hint : option Z) : option (option Z) :=
  match own_time e with
  | Known t => Some (Some t)
  | Unknown => Some hint
  | Overflows => None
  end.

(** An iterator over exchanges: what it will still produce, and whether it then
    raises an exception instead of stopping. *)
Record source := mkSource { s_items : list E; s_fails : bool }.
(** A source, and what [position] has for it: [None] when exhausted. *)
Record lane := mkLane { source_of : source; position : option (option Z * option E) }.

Inductive ending := Finished | Raised_in_source | Raised_AttributeError | Raised_OverflowError
                  | Raised_TypeError | OutOfFuel.

(** The loop that finds the sequence with the earliest position
    (httpolice/inputs/streams.py:255-268). *)
Fixpoint pick (i : nat) (best : option (nat * Z)) (lanes : list lane) : option nat :=
  match lanes with
  | [] => option_map fst best
  | l :: lanes' =>
      match position l with
      | None => pick (S i) best lanes'
      | Some (None, _) => Some i
      | Some (Some t, _) =>
          pick (S i)
               match best with
               | None => Some (i, t)
               | Some (_, min_time) => if (t <? min_time)%Z then Some (i, t) else best
               end lanes'
      end
  end.

(** [position[i] = ...]. *)
Fixpoint replace {A} (i : nat) (x : A) (l : list A) : list A :=
  match l, i with
  | [], _ => []
  | _ :: l', O => x :: l'
  | y :: l', S i' => y :: replace i' x l'
  end.

Section Loop.
(** The rest of the loop. *)
Variable continue : list lane -> list E * ending.
(** From [yield exchange] to the end of the body (lines 290-300). *)
Definition emit (lanes : list lane) (i : nat) (src : source) (time : option Z) (e : E) : list E * ending :=
  match s_items src with
  | [] => if s_fails src then ([e], Raised_in_source)
          else let (out, h) := continue (replace i (mkLane src None) lanes) in (e :: out, h)
  | e' :: items =>
      match exchange_time e' time with
      | None => ([e], Raised_OverflowError)
      | Some time' =>
          let (out, h) := continue (replace i (mkLane (mkSource items (s_fails src)) (Some (time', Some e'))) lanes) in
          (e :: out, h)
      end
  end.
(** The body of the loop (lines 253-300). *)
Definition body (lanes : list lane) : list E * ending :=
  match pick 0 None lanes with
  | None => ([], Finished)
  | Some i =>
      match nth_error lanes i with
      | Some (mkLane src (Some (time, Some e))) => emit lanes i src time e
      | Some (mkLane src (Some (time, None))) =>
          match s_items src with
          | [] => ([], if s_fails src then Raised_in_source else Raised_AttributeError)
          | e :: items =>
              match exchange_time e time with
              | None => ([], Raised_OverflowError)
              | Some new_time =>
                  match time, new_time with
                  | None, _ => continue (replace i (mkLane (mkSource items (s_fails src)) (Some (new_time, Some e))) lanes)
                  | Some _, None => ([], Raised_TypeError)
                  | Some t, Some t' =>
                      if (t <? t')%Z
                      then continue (replace i (mkLane (mkSource items (s_fails src)) (Some (new_time, Some e))) lanes)
                      else emit lanes i (mkSource items (s_fails src)) time e
                  end
              end
          end
      | _ => ([], Raised_TypeError)
      end
  end.
End Loop.

Fixpoint loop (fuel : nat) (lanes : list lane) : list E * ending :=
  match fuel with
  | O => ([], OutOfFuel)
  | S fuel' => body (loop fuel') lanes
  end.

Definition lane_size (l : lane) : nat :=
  2 * List.length (s_items (source_of l))
  + match position l with Some (_, Some _) => 1 | _ => 0 end.
Definition size (lanes : list lane) : nat := fold_right (fun l n => lane_size l + n) 0 lanes.
(** [_rearrange_by_time] (httpolice/inputs/streams.py:221-300). *)
Definition rearrange_by_time (sequences : list (source * option Z)) : list E * ending :=
  let lanes := map (fun x => mkLane (fst x) (Some (snd x, None))) sequences in
  loop (S (size lanes)) lanes.
End Rearrange.
Arguments source : clear implicits.
Arguments lane : clear implicits.

(** * Pairing of files *)

(** [_StreamInfo] (httpolice/inputs/streams.py:94-114); the type of connection
    hints has an equality, and sort hints are numbers. *)
Record info := mkInfo {
  i_path : str;
  i_source : str;
  i_destination : str;
  i_connection : option N;
  i_time : option Z;
  i_sort : N
}.
(** The keys of [streams_map]. *)
Definition skey : Type := option N * str * str.
Definition key (x : info) : skey := (i_connection x, i_source x, i_destination x).
Definition reverse_key (x : info) : skey := (i_connection x, i_destination x, i_source x).
Definition conn_eqb (a b : option N) : bool :=
  match a, b with Some x, Some y => (x =? y)%N | None, None => true | _, _ => false end.
Definition key_eqb (a b : skey) : bool :=
  let '(c, x, y) := a in let '(c', x', y') := b in conn_eqb c c' && str_eqb x x' && str_eqb y y'.

(** [sorted(l, key=lambda si: si.sort_hint)]: a stable sort. *)
Fixpoint insert (x : info) (l : list info) : list info :=
  match l with
  | [] => [x]
  | y :: l' => if (i_sort x <=? i_sort y)%N then x :: l else y :: insert x l'
  end.
Definition sorted (l : list info) : list info := fold_right insert [] l.
(** An insertion into an [OrderedDict]: a key that is there keeps its place. *)
Fixpoint put (m : list info) (x : info) : list info :=
  match m with
  | [] => [x]
  | y :: m' => if key_eqb (key y) (key x) then x :: m' else y :: put m' x
  end.
Definition streams_map (l : list info) : list info := fold_left put (sorted l) [].
(** [streams_map.pop(k)]. *)
Fixpoint pop (k : skey) (m : list info) : option (info * list info) :=
  match m with
  | [] => None
  | y :: m' =>
      if key_eqb (key y) k then Some (y, m')
      else match pop k m' with Some (x, m'') => Some (x, y :: m'') | None => None end
  end.
(** [min] of the time hints available. *)
Definition pair_time (a : info) (b : option info) : option Z :=
  match i_time a, match b with Some x => i_time x | None => None end with
  | Some t, Some u => Some (Z.min t u)
  | Some t, None => Some t
  | None, u => u
  end.
(** The [while] loop (httpolice/inputs/streams.py:132-159).  The elements are
    kept whole here instead of their paths; [None] is out of fuel. *)
Fixpoint recombine_loop (fuel : nat) (m : list info) : option (list (info * option info)) :=
  match m with
  | [] => Some []
  | x :: m' =>
      match fuel with
      | O => None
      | S fuel' =>
          match pop (reverse_key x) m' with
          | Some (y, m'') => option_map (cons (x, Some y)) (recombine_loop fuel' m'')
          | None => option_map (cons (x, None)) (recombine_loop fuel' m')
          end
      end
  end.
(** [_recombine_streams] (httpolice/inputs/streams.py:117-161). *)
Definition recombine (l : list info) : option (list (info * option info)) :=
  let m := streams_map l in recombine_loop (List.length m) m.
Definition path_pair (p : info * option info) : str * option str * option Z :=
  (i_path (fst p), option_map i_path (snd p), pair_time (fst p) (snd p)).

(** ** File names *)

Definition all_digits (x : str) : bool := nonempty x && forallb is_digit x.
Definition number_of (x : str) : N := fold_left (fun n c => n * 10 + (c - 48))%N x 0%N.
(** [$] in a regular expression also matches before a newline at the end. *)
Definition chomp (x : str) : str :=
  match rev x with
  | c :: r => if (c =? 10)%N then rev r else x
  | [] => x
  end.
Definition dash : N := 45.
(** The regular expression for names of tcpflow files
    (httpolice/inputs/streams.py:76): six fields separated by dashes.
    [\d] is restricted to ASCII digits here. *)
Definition tcpflow_name (name : str) : option (N * str * str) :=
  match split_c dash name with
  | [ts; a; p; b; q; n] =>
      if all_digits ts && nonempty a && all_digits p && nonempty b && all_digits q && all_digits (chomp n)
      then Some (number_of ts, a ++ [dash] ++ p, b ++ [dash] ++ q) else None
  | _ => None
  end.

Inductive outcome (A : Type) := Ok (a : A) | InputError (message : str) | ValueError.
Arguments Ok {A} a.
Arguments InputError {A} message.
Arguments ValueError {A}.

Definition ignored_names : list str := [s "report.xml"; s "alerts.txt"].
(** The loop over a directory in [tcpflow_input]
    (httpolice/inputs/streams.py:72-90); names are used as paths, and only the
    beginnings of the messages are kept.  [datetime.utcfromtimestamp] raises
    [ValueError] for years after 9999. *)
Fixpoint tcpflow_dir (names : list str) (seen : list (str * str)) : outcome (list info) :=
  match names with
  | [] => Ok []
  | name :: names' =>
      if existsb (str_eqb name) ignored_names then tcpflow_dir names' seen
      else match tcpflow_name name with
      | None => InputError (s "wrong tcpflow filename ")
      | Some (ts, src, dest) =>
          if existsb (fun sd => str_eqb (fst sd) src && str_eqb (snd sd) dest) seen
          then InputError (s "duplicate source+destination address+port: ")
          else if (max_time <? unix_epoch + Z.of_N ts)%Z then ValueError
          else match tcpflow_dir names' ((src, dest) :: seen) with
               | Ok l => Ok (mkInfo name src dest None (Some (unix_epoch + Z.of_N ts)%Z) ts :: l)
               | err => err
               end
      end
  end.

(** The text up to the first [sep], and after it. *)
Fixpoint cut_at (sep : N) (x : str) : option (str * str) :=
  match x with
  | [] => None
  | c :: x' => if (c =? sep)%N then Some ([], x')
               else match cut_at sep x' with Some (a, b) => Some (c :: a, b) | None => None end
  end.
Definition underscore : N := 95.
Inductive side := Serv | Clnt.
(** [[^.]+.] and the given suffix, at the end of [y]. *)
Definition port_and (suffix y : str) : bool :=
  starts_with (rev y) (rev suffix)
  && match skipn (List.length suffix) (rev y) with
     | c :: ((_ :: _) as r) => negb (c =? 10)%N && forallb (fun a => negb (a =? 46)%N) r
     | _ => false
     end.
(** [[^.]+.(serv|clnt)\.dat$]. *)
Definition tcpick_tail (x : str) : option side :=
  if port_and (s "serv.dat") (chomp x) then Some Serv
  else if port_and (s "clnt.dat") (chomp x) then Some Clnt
  else None.
(** The regular expression for names of tcpick files
    (httpolice/inputs/streams.py:44). *)
Definition tcpick_name (name : str) : option (N * str * str * side) :=
  if starts_with name (s "tcpick_") then
    match cut_at underscore (skipn 7 name) with
    | Some (counter, rest) =>
        match cut_at underscore rest with
        | Some (src, rest') =>
            match cut_at underscore rest' with
            | Some (dest, tail) =>
                if all_digits counter && nonempty src && nonempty dest
                then option_map (fun d => (number_of counter, src, dest, d)) (tcpick_tail tail) else None
            | None => None
            end
        | None => None
        end
    | None => None
    end
  else None.
(** The loop over a directory in [tcpick_input]
    (httpolice/inputs/streams.py:41-55). *)
Fixpoint tcpick_dir (names : list str) : outcome (list info) :=
  match names with
  | [] => Ok []
  | name :: names' =>
      match tcpick_name name with
      | None => InputError (s "wrong tcpick filename ")
      | Some (counter, src, dest, d) =>
          match tcpick_dir names' with
          | Ok l => Ok (match d with
                        | Serv => mkInfo name dest src (Some counter) None counter
                        | Clnt => mkInfo name src dest (Some counter) None counter
                        end :: l)
          | err => err
          end
      end
  end.

(** * From pairs of files to exchanges *)

(** [re.match(br'HTTP/1\.[0-9] [0-9]{3} ', line)]
    (httpolice/inputs/streams.py:331-334).  No part of the expression matches
    a newline, so the data need not be cut at the end of the line. *)
Definition sniff_outbound (data : str) : bool :=
  starts_with data (s "HTTP/1.")
  && match skipn 7 data with
     | d :: b :: x :: y :: z :: c :: _ => is_digit d && (b =? 32)%N && is_digit x && is_digit y && is_digit z && (c =? 32)%N
     | _ => false
     end.
Fixpoint first_line (data : str) : str :=
  match data with
  | [] => []
  | c :: data' => if (c =? 10)%N then [] else c :: first_line data'
  end.
(** [bytes.rstrip]. *)
Fixpoint lstrip (x : str) : str :=
  match x with
  | c :: x' => if ((9 <=? c) && (c <=? 13) || (c =? 32))%N then lstrip x' else x
  | [] => []
  end.
Definition rstrip (x : str) : str := rev (lstrip (rev x)).
(** [re.match(br'[^ ]+ [^ ]+ HTTP/1\.[0-9]$', line.rstrip())]
    (httpolice/inputs/streams.py:337-340). *)
Definition sniff_inbound (data : str) : bool :=
  match split_c 32 (rstrip (first_line data)) with
  | [a; b; v] => nonempty a && nonempty b && starts_with v (s "HTTP/1.")
                 && match skipn 7 v with [d] => is_digit d | _ => false end
  | _ => false
  end.
(** A file: its path and contents. *)
Definition file : Type := str * str.
Definition maybe (f : str -> bool) (x : option file) : bool :=
  match x with Some (_, data) => f data | None => false end.
(** [_sniff_direction] (httpolice/inputs/streams.py:319-328). *)
Definition sniff_direction (f1 f2 : option file) : option (option file * option file) :=
  if maybe sniff_outbound f1 then Some (f2, f1)
  else if maybe sniff_outbound f2 then Some (f1, f2)
  else if maybe sniff_inbound f1 then Some (f1, f2)
  else if maybe sniff_inbound f2 then Some (f2, f1)
  else None.

(** What is produced for a connection. *)
Inductive item := Box1278 (path : str) | Box1279 (path1 path2 : str) | Ex (x : exchange).
Definition path_or (f : option file) (default : str) : str :=
  match f with Some (p, _) => p | None => default end.
(** The end of an iteration of [_path_pairs_input]
    (httpolice/inputs/streams.py:198-207): [pre] has been produced already. *)
Definition opened (E : env) (pre : list item) (inb outb : option file) : source item :=
  match inb, outb with
  | None, None => mkSource pre false
  | _, _ =>
      let r := parse_streams E (option_map (fun f => new_stream (snd f)) inb)
                               (option_map (fun f => new_stream (snd f)) outb) in
      mkSource (pre ++ map Ex (yielded r)) (match how r with Framing.Finished => false | _ => true end)
  end.
(** The exchanges of one pair of files, in [_path_pairs_input]
    (httpolice/inputs/streams.py:164-208); an exception of [parse_streams]
    ends the iterator. *)
Definition connection (E : env) (sniff complain_on_one_sided : bool) (f1 f2 : option file) : source item :=
  let one_sided :=
    match f1, f2 with
    | Some _, Some _ => []
    | _, _ => if complain_on_one_sided then [Box1278 (path_or f1 (path_or f2 []))] else []
    end in
  if sniff then
    match sniff_direction f1 f2 with
    | None => mkSource (one_sided ++ [Box1279 (path_or f1 (s "(none)")) (path_or f2 (s "(none)"))]) false
    | Some (inb, outb) => opened E one_sided inb outb
    end
  else opened E one_sided f1 f2.
(** [_path_pairs_input] (httpolice/inputs/streams.py:164-208). *)
Definition path_pairs_input (E : env) (own_time : item -> clock) (sniff complain : bool)
  (pairs : list (option file * option file * option Z)) : list item * ending :=
  rearrange_by_time own_time
    (map (fun p => (connection E sniff complain (fst (fst p)) (snd (fst p)), snd p)) pairs).

(** * Combined files *)

(** [data.split(marker, 1)]: before and after the first occurrence. *)
Fixpoint split1 (marker data : str) : option (str * str) :=
  if starts_with data marker then Some ([], skipn (List.length marker) data)
  else match data with
       | [] => None
       | c :: data' => match split1 marker data' with Some (a, b) => Some (c :: a, b) | None => None end
       end.
Definition inbound_marker : str := s "======== BEGIN INBOUND STREAM ========" ++ [13; 10]%N.
Definition outbound_marker : str := s "======== BEGIN OUTBOUND STREAM ========" ++ [13; 10]%N.
(** The scheme (httpolice/inputs/streams.py:352-357). *)
Definition scheme_of (path : str) : option str :=
  if ends_with path (s ".https") then Some (s "https")
  else if ends_with path (s ".noscheme") then None
  else Some (s "http").
(** [parse_combined] (httpolice/inputs/streams.py:350-380), given the contents
    of the file and the UTF-8 decoder. *)
Definition parse_combined (utf8 : str -> option str) (path data : str) : outcome (str * str * option str * str) :=
  match split1 inbound_marker data with
  | None => InputError (path ++ s ": bad combined file: no inbound marker")
  | Some (preamble, rest) =>
      match utf8 preamble with
      | None => InputError (path ++ s ": invalid UTF-8 in preamble")
      | Some preamble' =>
          match split1 outbound_marker rest with
          | None => InputError (path ++ s ": bad combined file: no outbound marker")
          | Some (inbound, outbound) => Ok (inbound, outbound, scheme_of path, preamble')
          end
      end
  end.
