(** Model of [parse], its memo table and the annotations:
    httpolice/parse.py:52-137, and of what a rule evaluates to:
    httpolice/parse.py:865-899, 944-956. *)
From Verif Require Import Base Earley.
Open Scope nat_scope.
Unset Strict Implicit.

(** * Nodes, complaints and annotations *)

Section Nodes.
Context {G : grammar}.
(** [V] is the type of Python values that nodes can be, [C] that of
    complaints, an annotation is [(start, end, object)]. *)
Context {V C : Type}.
(** A decoded character (809), [_SKIP] (492), a tuple of values (896), a list
    of values (950). *)
Variable char : N -> V.
Variable skip : V.
Variable is_skip : V -> bool.
Variable tuple : list V -> V.
Variable listv : list V -> V.
(** [Rule.action]: takes the nodes, returns the new nodes and the complaints
    it made, in order.  Actions are pure functions here. *)
Variable action : rl G -> option (list V -> list V * list C).
(** [isinstance(result, annotate_classes)]. *)
Variable annotated : V -> bool.

Record presult := PResult {
  pr_node : V;
  pr_complaints : list C;
  pr_annotations : list (nat * nat * V)
}.

(** Terminals (httpolice/parse.py:806-811). *)
Definition node_leaf (c : N) : presult := PResult (char c) [] [].

(** Rules (httpolice/parse.py:865-899). *)
Definition node_act (A : nt G) (r : rl G) (start_i end_i : nat) (kids : list presult) : presult :=
  let nodes := map pr_node kids in
  let all_complaints := flat_map pr_complaints kids in
  let all_annotations := flat_map pr_annotations kids in
  let (nodes', more) := match action r with
                        | Some a => a nodes
                        | None => (nodes, [])
                        end in
  let result := match filter (fun n => negb (is_skip n)) nodes' with
                | [] => skip
                | [n] => n
                | l => tuple l
                end in
  PResult result (all_complaints ++ more)
          (all_annotations ++ if annotated result then [(start_i, end_i, result)] else []).

(** Unrolled repetitions (httpolice/parse.py:944-956). *)
Definition node_rep (kids : list presult) : presult :=
  PResult (listv (map pr_node kids)) (flat_map pr_complaints kids) (flat_map pr_annotations kids).

End Nodes.

(** * Splicing (httpolice/parse.py:127-136) *)

Inductive chunk (V : Type) :=
| Bytes (b : str)
| Obj (o : V).
Arguments Bytes {V} b.
Arguments Obj {V} o.

(** [data[i:j]] for [i], [j] not negative. *)
Definition bslice (data : str) (i j : nat) : str := firstn (j - i) (skipn i data).

(** The loop (httpolice/parse.py:128-135). *)
Fixpoint splice_loop {V} (data : str) (i : nat) (anns : list (nat * nat * V)) : list (chunk V) :=
  match anns with
  | [] => [Bytes (skipn i data)]
  | (start, end_i, obj) :: anns' =>
      if i <=? start
      then Bytes (bslice data i start) :: Obj obj :: splice_loop data end_i anns'
      else splice_loop data i anns'
  end.

(** [_splice_annotations] (httpolice/parse.py:127-136).  The annotated
    objects are instances of classes that never equal [b'']. *)
Definition splice {V} (data : str) (anns : list (nat * nat * V)) : list (chunk V) :=
  filter (fun c => match c with Bytes [] => false | _ => true end) (splice_loop data 0 anns).

(** * [parse] (httpolice/parse.py:52-124) *)

Section Memo.
(** Symbols and classes are compared by identity; [V], [E] and the complaints
    are opaque. *)
Context {Sym Cls V E Ctx : Type}.
Variable sym_dec : forall a b : Sym, {a = b} + {a <> b}.
Variable cls_dec : forall a b : Cls, {a = b} + {a <> b}.

Definition complaint : Type := N * Ctx.
(** [(result, complaints, annotations)]. *)
Definition inner_result : Type := V * list complaint * list (nat * nat * V).
(** [_inner_parse(data, symbol.as_nonterminal(), annotate_classes)]: a result
    or a [ParseError].  Any function whatever. *)
Variable inner : str -> Sym -> list Cls -> inner_result + E.
(** [Unavailable(data)], [{'error': e}] for a [ParseError] and for a
    [UnicodeError], and [dict(extra_context, **context)]. *)
Variable unavailable : str -> V.
Variable error_ctx : E -> Ctx.
Variable unicode_ctx : str -> Ctx.
Variable merge : Ctx -> Ctx -> Ctx.

Definition key : Type := str * Sym * list Cls.

Definition key_dec : forall a b : key, {a = b} + {a <> b}.
Proof.
  intros [[d x] cs] [[d' x'] cs'].
  destruct (list_eq_dec N.eq_dec d d') as [->|H]; [|right; congruence].
  destruct (sym_dec x x') as [->|H]; [|right; congruence].
  destruct (list_eq_dec cls_dec cs cs') as [->|H]; [|right; congruence].
  left; reflexivity.
Defined.

(** [_memo], an [OrderedDict], oldest entry first (httpolice/parse.py:122). *)
Definition memo : Type := list (key * inner_result).

(** [MEMO_LIMIT] (httpolice/parse.py:124). *)
Definition memo_limit : nat := 500.

Fixpoint memo_get (m : memo) (k : key) : option inner_result :=
  match m with
  | [] => None
  | (k', v) :: m' => if key_dec k k' then Some v else memo_get m' k
  end.

(** [_memo.pop(key, None)] leaves these entries. *)
Definition memo_del (m : memo) (k : key) : memo :=
  filter (fun e => if key_dec k (fst e) then false else true) m.

(** [_memo[key] = value] for an absent key: appended at the end. *)
Definition memo_put (m : memo) (k : key) (v : inner_result) : memo := m ++ [(k, v)].

(** [while len(_memo) > MEMO_LIMIT: _memo.popitem(last=False)]
    (httpolice/parse.py:108-109). *)
Definition memo_evict (m : memo) : memo := skipn (List.length m - memo_limit) m.

(** A call of [parse]. *)
Record call := Call {
  c_data : str;                (* as bytes, or as code points *)
  c_is_bytes : bool;
  c_symbol : Sym;
  c_complain : bool;           (* is [complain] given? *)
  c_fail_notice : option N;
  c_classes : list Cls;
  c_extra : Ctx
}.

(** What a call does: raise one of three exceptions, or return a value and
    perhaps an annotated string. *)
Inductive outcome :=
| RaiseParseError (e : E)
| RaiseUnicodeError
| RaiseTypeError                        (* calling [complain], which is [None] *)
| Return (r : V) (annotated : option (option (list (chunk V)))).

(** [data.encode('iso-8859-1')]: [None] if a character does not fit. *)
Definition encode_latin1 (d : str) : option str :=
  if forallb (fun c => N.ltb c 256) d then Some d else None.

(** The end of [parse] (httpolice/parse.py:111-120): the complaints reported
    through [complain], and the outcome. *)
Definition finish (c : call) (data : str) (pr : inner_result) : list complaint * outcome :=
  let '(r, complaints, annotations) := pr in
  ((if c_complain c
    then map (fun nc => (fst nc, merge (c_extra c) (snd nc))) complaints else []),
   Return r (match c_classes c with
             | [] => None
             | _ => Some (Some (splice data annotations))
             end)).

(** [parse] (httpolice/parse.py:85-120): the memo afterwards, the complaints
    reported, and the outcome.  (Passing an extra context named 'error'
    together with an undecodable string would be a [TypeError] in Python; the
    contexts are opaque here, so this is not modelled.) *)
Definition parse (m : memo) (c : call) : memo * (list complaint * outcome) :=
  let encoded := if c_is_bytes c then Some (c_data c) else encode_latin1 (c_data c) in
  match encoded with
  | None =>
      (m, match c_fail_notice c with
          | None => ([], RaiseUnicodeError)
          | Some id =>
              if c_complain c
              then ([(id, merge (unicode_ctx (c_data c)) (c_extra c))],
                    Return (unavailable (c_data c))
                           (match c_classes c with [] => None | _ => Some None end))
              else ([], RaiseTypeError)
          end)
  | Some data =>
      let k := (data, c_symbol c, c_classes c) in
      match memo_get m k with
      | Some pr => (memo_put (memo_del m k) k pr, finish c data pr)
      | None =>
          match inner data (c_symbol c) (c_classes c) with
          | inl pr => (memo_evict (memo_put m k pr), finish c data pr)
          | inr e =>
              match c_fail_notice c with
              | None => (m, ([], RaiseParseError e))
              | Some id => (m, finish c data (unavailable data, [(id, error_ctx e)], []))
              end
          end
      end
  end.

(** A history of calls, starting with the given table. *)
Fixpoint parse_all (m : memo) (cs : list call) : memo * list (list complaint * outcome) :=
  match cs with
  | [] => (m, [])
  | c :: cs' =>
      let (m1, o) := parse m c in
      let (m2, os) := parse_all m1 cs' in
      (m2, o :: os)
  end.
End Memo.
