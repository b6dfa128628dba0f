(** Model of httpolice/stream.py: a byte stream with position, end-of-file and
    sanity flags and a list of pending complaints. *)
From Verif Require Import Base.

(** State of a [Stream] (httpolice/stream.py:18-25) together with the file it
    wraps.  [rest] is what the file has not yielded yet, [pos] is
    [file.tell()].  The file is an [io.BufferedReader], as in
    httpolice/inputs/streams.py.  Simplification: [name] and the stack
    [_currently_parsing] (used only to name the grammar symbol in an error
    message) are left out. *)
Record stream := mkStream {
  rest : str;
  pos : N;
  eof : bool;
  sane : bool;
  pending : list N        (* [complaints]: notice ids, in order *)
}.

(** httpolice/stream.py:18-25 *)
Definition new_stream (data : str) : stream := mkStream data 0 false true [].

(** What a [ParseError] raised by the stream says was expected
    (httpolice/stream.py:39-42, 57-64, 71-75, 87-90). *)
Inductive expectation :=
| ExpNothing                    (* no description *)
| ExpBytes (n : Z)              (* 'at least %d bytes' *)
| ExpLineLimit                  (* 'no more than %d bytes before end of line' *)
| ExpLine                       (* 'data terminated by end of line' *)
| ExpLineEnd.                   (* 'end of line' *)

Record perror := mkPerror { pe_pos : N; pe_expected : expectation }.

(** Result of a computation that may raise.  [Fuel] is the model's own
    out-of-fuel value, which is proved unreachable. *)
Inductive outcome (A : Type) :=
| Val (a : A)
| ParseErr (e : perror)         (* [ParseError] *)
| TooLong (size : Z)            (* [BodyTooLongError] *)
| ValueErr                      (* an uncaught [ValueError] *)
| Fuel.
Arguments Val {A}. Arguments ParseErr {A}. Arguments TooLong {A}.
Arguments ValueErr {A}. Arguments Fuel {A}.

(** Stateful computations on a stream. *)
Definition M (A : Type) := stream -> outcome A * stream.

Definition ret {A} (a : A) : M A := fun st => (Val a, st).

Definition bind {A B} (m : M A) (f : A -> M B) : M B :=
  fun st =>
    match m st with
    | (Val a, st') => f a st'
    | (ParseErr e, st') => (ParseErr e, st')
    | (TooLong z, st') => (TooLong z, st')
    | (ValueErr, st') => (ValueErr, st')
    | (Fuel, st') => (Fuel, st')
    end.

Notation "x <- m ;; k" := (bind m (fun x => k))
  (at level 61, m at next level, right associativity).

Definition set_sane (b : bool) (st : stream) : stream :=
  mkStream st.(rest) st.(pos) st.(eof) b st.(pending).

Definition add_pending (id : N) (st : stream) : stream :=
  mkStream st.(rest) st.(pos) st.(eof) st.(sane) (st.(pending) ++ [id]).

Definition clear_pending (st : stream) : stream :=
  mkStream st.(rest) st.(pos) st.(eof) st.(sane) [].

(** httpolice/stream.py:39-42: [raise self.error(position, expected)]. *)
Definition raise_error {A} (position : N) (expected : expectation) : M A :=
  fun st => (ParseErr (mkPerror position expected), set_sane false st).

(** httpolice/stream.py:44-46 *)
Definition good (st : stream) : bool := st.(sane) && negb st.(eof).

(** httpolice/stream.py:48-49 *)
Definition tell : M N := fun st => (Val st.(pos), st).

(** httpolice/stream.py:51-52: [None] is [b'']. *)
Definition peek : M (option N) :=
  fun st => (Val (match st.(rest) with [] => None | c :: _ => Some c end), st).

(** httpolice/stream.py:92-93 *)
Definition complain (id : N) : M unit := fun st => (Val tt, add_pending id st).

Definition is_nil {A} (l : list A) : bool := match l with [] => true | _ => false end.

(** The state after the file has yielded [n] bytes leaving [r], and the
    [if self.peek() == b'': self.eof = True] that follows every read. *)
Definition after_read (st : stream) (n : N) (r : str) : stream :=
  mkStream r (st.(pos) + n) (st.(eof) || is_nil r) st.(sane) st.(pending).

(** httpolice/stream.py:54-61.  [n = -1] means everything; for [n < -1]
    [io.BufferedReader.read] raises [ValueError]. *)
Definition read (n : Z) : M str :=
  fun st =>
    let p := st.(pos) in
    if (n <? -1)%Z then (ValueErr, st)
    else
      let (r, rest') := if (n =? -1)%Z then (st.(rest), [])
                        else takeN (Z.to_N n) st.(rest) in
      let st' := after_read st (lenN r) rest' in
      if (Z.of_N (lenN r) <? n)%Z && (0 <? n)%Z
      then raise_error p (ExpBytes n) st'
      else (Val r, st').

(** httpolice/stream.py:16 *)
Definition max_line_length : N := 16384.

(** [file.readline(limit)]: through the first LF, at most [limit] bytes. *)
Fixpoint take_line (limit : N) (l : str) : str * str :=
  match l with
  | [] => ([], [])
  | c :: l' =>
      if limit =? 0 then ([], l)
      else if c =? 10 then ([c], l')
      else let (a, b) := take_line (N.pred limit) l' in (c :: a, b)
  end.

(** httpolice/stream.py:63-85.  [r.endswith(b'\n')], [r[-2:-1]], [r[:-2]] and
    [r[:-1]] are taken by way of the reversed string; [decode] only changes the
    Python type. *)
Definition readline : M str :=
  fun st =>
    let p := st.(pos) in
    let (r, rest') := take_line max_line_length st.(rest) in
    let st' := after_read st (lenN r) rest' in
    let failed := if max_line_length <=? lenN r
                  then raise_error p ExpLineLimit st'
                  else raise_error p ExpLine st' in
    match rev r with
    | c :: line =>
        if c =? 10 then
          match line with
          | c2 :: line' =>
              if c2 =? 13 then (Val (rev line'), st')
              else (Val (rev line), add_pending 1224 st')
          | [] => (Val [], add_pending 1224 st')
          end
        else failed
    | [] => failed
    end.

(** httpolice/stream.py:87-90 *)
Definition readlineend : M unit :=
  p <- tell ;;
  l <- readline ;;
  if is_nil l then ret tt else raise_error p ExpLineEnd.
