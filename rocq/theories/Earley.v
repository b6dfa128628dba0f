(** Model of the Earley parser: httpolice/parse.py:702-1011.

    Grammars are abstract: a type of nonterminal objects, a type of rule
    objects (both compared by identity in Python, by a decidable equality
    here), the rules of a nonterminal and the symbols of a rule.  Nothing is
    assumed about them in this file: they may be ambiguous, cyclic, nullable,
    left- or right-recursive.

    Python's lazy generators are lists here, so a search enumerates all its
    results even though [_inner_parse] only takes the first fitting one; the
    semantic actions are pure, so this cannot be observed (apart from the
    time it takes).  Loops take a [fuel] argument; [NoFuel] is excluded by the
    theorems. *)
From Verif Require Import Base.
Open Scope nat_scope.
Unset Strict Implicit.

(** Outcome of a computation: a value, not enough fuel, or the [IndexError]
    of popping an empty list (httpolice/parse.py:857). *)
Inductive out (A : Type) :=
| Done (a : A)
| NoFuel
| Crash.
Arguments Done {A} a.
Arguments NoFuel {A}.
Arguments Crash {A}.

Definition obind {A B} (x : out A) (f : A -> out B) : out B :=
  match x with Done a => f a | NoFuel => NoFuel | Crash => Crash end.

(** A symbol in a rule: a terminal (httpolice/parse.py:304-341) with its set
    of octets given as a bit mask, or a nonterminal. *)
Inductive sym (nt : Type) :=
| Tm (bits : N)
| Nt (A : nt).
Arguments Tm {nt} bits.
Arguments Nt {nt} A.

(** [Terminal.match] (httpolice/parse.py:315-316). *)
Definition tmatch (bits c : N) : bool := N.testbit bits c.

(** A grammar as seen by the parser: [rules], [Rule.symbols], whether the
    object is a [RepeatedNonterminal], and [is_pivot]
    (httpolice/parse.py:176-456). *)
Record grammar := Grammar {
  nt : Type;
  rl : Type;
  nt_dec : forall a b : nt, {a = b} + {a <> b};
  rl_dec : forall a b : rl, {a = b} + {a <> b};
  g_rules : nt -> list rl;
  g_rhs : rl -> list (sym nt);
  g_rep : nt -> bool;
  g_pivot : nt -> bool
}.
Arguments g_rules {g} _.
Arguments g_rhs {g} _.
Arguments g_rep {g} _.
Arguments g_pivot {g} _.

(** [(symbol, rule, pos, start)] (httpolice/parse.py:702-722). *)
Record item (G : grammar) := Item {
  it_nt : nt G;
  it_rl : rl G;
  it_pos : nat;
  it_start : nat
}.
Arguments Item {G} _ _ _ _.
Arguments it_nt {G} _.
Arguments it_rl {G} _.
Arguments it_pos {G} _.
Arguments it_start {G} _.

Section Earley.
Context {G : grammar}.
Implicit Types (A B : nt G) (it : item G) (items : list (item G)).

Definition item_dec : forall a b : item G, {a = b} + {a <> b}.
Proof.
  intros [A r p k] [A' r' p' k'].
  destruct (nt_dec A A') as [->|H]; [|right; congruence].
  destruct (rl_dec r r') as [->|H]; [|right; congruence].
  destruct (Nat.eq_dec p p') as [->|H]; [|right; congruence].
  destruct (Nat.eq_dec k k') as [->|H]; [|right; congruence].
  left; reflexivity.
Defined.

(** [item in items] / [fingerprint in items_set]. *)
Definition mem_item it items : bool :=
  if in_dec item_dec it items then true else false.

(** [rule.xsymbols[pos]]: [None] for a completed item
    (httpolice/parse.py:453-456, 752). *)
Definition next_sym it : option (sym (nt G)) :=
  nth_error (g_rhs (it_rl it)) (it_pos it).

(** [pos + 1]. *)
Definition advance it : item G :=
  Item (it_nt it) (it_rl it) (S (it_pos it)) (it_start it).

(** [_add_item] (httpolice/parse.py:702-722).  [items_idx] and [items_set]
    are functions of [items] and are recomputed where they are used. *)
Definition add_item items it : list (item G) :=
  if mem_item it items then items else items ++ [it].

Definition add_items items new : list (item G) := fold_left add_item new items.

(** Is the item in [items_idx[A]], that is, is [A] its next symbol? *)
Definition waits A it : bool :=
  match next_sym it with
  | Some (Nt B) => if nt_dec A B then true else false
  | _ => false
  end.

(** [Nonterminal.is_nullable] (httpolice/parse.py:377-382), with the
    short-circuiting of [any] and [all].  The cached answer [_is_nullable] is
    not modelled (it is written only once the recursion has returned).  A
    recursion that never ends is [NoFuel] for every fuel. *)
Fixpoint is_nullable (fuel : nat) A : out bool :=
  match fuel with
  | O => NoFuel
  | S f =>
      (fix any_rule (rs : list (rl G)) : out bool :=
         match rs with
         | [] => Done false
         | r :: rs' =>
             obind
               ((fix all_syms (ss : list (sym (nt G))) : out bool :=
                   match ss with
                   | [] => Done true
                   | Tm _ :: _ => Done false
                   | Nt B :: ss' =>
                       obind (is_nullable f B)
                             (fun b => if b then all_syms ss' else Done false)
                   end) (g_rhs r))
               (fun b => if b then Done true else any_rule rs')
         end) (g_rules A)
  end.

(** Completion (httpolice/parse.py:754-762): copy the items waiting for [A]
    from position [start], advanced.  [prev] is the inventory of an earlier
    position; when it is [None] the completed item starts at the current
    position and [candidates] is the list that [_add_item] is appending to,
    so the loop sees its own additions. *)
Fixpoint complete (fuel : nat) (prev : option (list (item G))) A (c : nat) items
  : out (list (item G)) :=
  match fuel with
  | O => NoFuel
  | S f =>
      let candidates :=
        filter (waits A) (match prev with Some l => l | None => items end) in
      match nth_error candidates c with
      | None => Done items
      | Some it => complete f prev A (S c) (add_item items (advance it))
      end
  end.

(** One turn of the inner loop (httpolice/parse.py:750-785), for the item
    [it] at position [i].  [chart] holds the inventories of the positions
    before [i], [token] is [data[i:i+1]], [next] the inventory of [i+1]. *)
Definition process (fuel : nat) (i : nat) (token : option N)
    (chart : list (list (item G))) it items (next : list (item G))
  : out (list (item G) * list (item G)) :=
  match next_sym it with
  | None =>
      obind (complete fuel (if it_start it =? i then None
                            else Some (nth (it_start it) chart []))
                      (it_nt it) O items)
            (fun items' => Done (items', next))
  | Some (Nt B) =>
      obind (is_nullable fuel B) (fun b =>
        let items1 := if b then add_item items (advance it) else items in
        Done (add_items items1 (map (fun r => Item B r 0 i) (g_rules B)), next))
  | Some (Tm bits) =>
      match token with
      | Some c => if tmatch bits c then Done (items, add_item next (advance it))
                  else Done (items, next)
      | None => Done (items, next)
      end
  end.

(** The inner loop (httpolice/parse.py:748-788). *)
Fixpoint inner_loop (fuel : nat) (i : nat) (token : option N)
    (chart : list (list (item G))) (j : nat) items next
  : out (list (item G) * list (item G)) :=
  match fuel with
  | O => NoFuel
  | S f =>
      match nth_error items j with
      | None => Done (items, next)
      | Some it =>
          obind (process f i token chart it items next)
                (fun p => inner_loop f i token chart (S j) (fst p) (snd p))
      end
  end.

(** The outer loop (httpolice/parse.py:734-788): the finished chart, and the
    value of [i] when the loop ends. *)
Fixpoint outer_loop (fuel : nat) (i : nat) (rest : str)
    (chart : list (list (item G))) items
  : out (list (list (item G)) * nat) :=
  match items with
  | [] => Done (chart ++ [[]; []], i)
  | _ =>
      obind (inner_loop fuel i (hd_error rest) chart O items [])
            (fun p =>
               match rest with
               | [] => Done (chart ++ [fst p; snd p], i)
               | _ :: rest' =>
                   outer_loop fuel (S i) rest' (chart ++ [fst p]) (snd p)
               end)
  end.

(** Seeding (httpolice/parse.py:726-732). *)
Definition seed A : list (item G) :=
  add_items [] (map (fun r => Item A r 0 0) (g_rules A)).

Definition build_chart (fuel : nat) (data : str) A :=
  outer_loop fuel O data [] (seed A).

(** * The search for results (httpolice/parse.py:803-971) *)

Section Search.
(** What a symbol evaluates to: a node together with its complaints and
    annotations.  [leaf] makes the result of a terminal (806-812), [act] that
    of a rule from the results of its symbols, left to right (865-899), and
    [act_rep] that of an unrolled repetition (944-956). *)
Context {R : Type}.
Variable leaf : N -> R.
Variable act : nt G -> rl G -> nat -> nat -> list R -> R.
Variable act_rep : list R -> R.

(** [(start_i, item, result)]; the item is [None] for a terminal. *)
Definition result : Type := nat * option (item G) * R.

(** [(i, parents, rs, node)] (httpolice/parse.py:843).  [rs] is the rest of
    the iterator. *)
Definition frame : Type := nat * list (item G) * option (list result) * option R.

(** Is this the unrolled rule of a repetition (httpolice/parse.py:849-855)? *)
Definition rep_rule A (r : rl G) : bool :=
  g_rep A &&
  match g_rhs r with
  | Nt B :: _ => if nt_dec A B then true else false
  | _ => false
  end.

Definition frame_nodes (frames : list frame) : list R :=
  flat_map (fun fr => match snd fr with Some n => [n] | None => [] end) frames.

(** Prepend results to the outcome of what follows a [yield]. *)
Definition yield (ys : list result) (x : out (list result)) : out (list result) :=
  obind x (fun zs => Done (ys ++ zs)).

Section Machine.
(** [_find_results] for the inner symbols. *)
Variable find : sym (nt G) -> nat -> list (item G) -> out (list result).
Variable it : item G.
Variable end_i : nat.

(** The number of frames of a complete parse, [None] when unrolling. *)
Definition n_nodes : option nat :=
  if rep_rule (it_nt it) (it_rl it) then None
  else Some (List.length (g_rhs (it_rl it))).

(** The symbol handled by the frame above [n] others. *)
Definition inner_symbol (n : nat) : option (sym (nt G)) :=
  match n_nodes with
  | None => hd_error (rev (g_rhs (it_rl it)))
  | Some _ => nth_error (rev (g_rhs (it_rl it))) n
  end.

(** The frame machine (httpolice/parse.py:856-971).  The head of the list is
    the top of the stack. *)
Fixpoint machine (fuel : nat) (frames : list frame) : out (list result) :=
  match fuel with
  | O => NoFuel
  | S f =>
      match frames with
      | [] => Crash
      | (i, parents, rs, node) :: frames' =>
          if match n_nodes with
             | Some n => List.length frames' =? n
             | None => false
             end
          then
            if negb (i =? it_start it) then machine f frames'
            else
              let r := (it_start it, Some it,
                        act (it_nt it) (it_rl it) (it_start it) end_i
                            (frame_nodes frames')) in
              yield [r] (match frames' with [] => Done [] | _ => machine f frames' end)
          else
            obind
              (match rs with
               | Some l => Done l
               | None =>
                   match inner_symbol (List.length frames') with
                   | Some x => find x i parents
                   | None => Crash
                   end
               end)
              (fun l =>
                 match l with
                 | [] => match frames' with [] => Done [] | _ => machine f frames' end
                 | (new_i, new_item, new_node) :: l' =>
                     let new_parents :=
                       if new_i <? i then []
                       else match n_nodes, new_item with
                            | None, Some x => parents ++ [x]
                            | _, _ => parents
                            end in
                     let ys :=
                       match n_nodes with
                       | None =>
                           if new_i =? it_start it
                           then [(new_i, Some it,
                                  act_rep (new_node :: frame_nodes frames'))]
                           else []
                       | Some _ => []
                       end in
                     yield ys
                       (if it_start it <=? new_i
                        then machine f ((new_i, new_parents, None, None)
                                        :: (i, parents, Some l', Some new_node) :: frames')
                        else machine f ((i, parents, Some l', node) :: frames'))
                 end)
      end
  end.
End Machine.

(** Run a search over a list and concatenate what it yields. *)
Fixpoint concat_map_out {X Y} (f : X -> out (list Y)) (l : list X) : out (list Y) :=
  match l with
  | [] => Done []
  | x :: l' => obind (f x) (fun ys => obind (concat_map_out f l') (fun zs => Done (ys ++ zs)))
  end.

(** The completed items for [A] in an inventory that are not being processed
    further up the stack (httpolice/parse.py:816-827). *)
Definition completed A (parents : list (item G)) items : list (item G) :=
  filter (fun it => match next_sym it with None => true | Some _ => false end
                    && (if nt_dec (it_nt it) A then true else false)
                    && negb (mem_item it parents)) items.

(** [_find_results] (httpolice/parse.py:803-971). *)
Fixpoint find_results (fuel : nat) (data : str) (chart : list (list (item G)))
    (x : sym (nt G)) (end_i : nat) (parents : list (item G)) : out (list result) :=
  match fuel with
  | O => NoFuel
  | S f =>
      match x with
      | Tm bits =>
          match end_i with
          | O => Done []
          | S e =>
              match nth_error data e with
              | Some c => if tmatch bits c then Done [(e, None, leaf c)] else Done []
              | None => Done []
              end
          end
      | Nt A =>
          concat_map_out
            (fun it => machine (find_results f data chart) it end_i f
                         [(end_i, parents ++ [it], None, None)])
            (completed A parents (nth end_i chart []))
      end
  end.

(** The first result that stretches to the beginning (httpolice/parse.py:793-798). *)
Definition first_at_0 (rs : list result) : option R :=
  match find (fun r => fst (fst r) =? 0) rs with
  | Some r => Some (snd r)
  | None => None
  end.

(** * The error (httpolice/parse.py:974-1011) *)

(** [_find_pivots] (httpolice/parse.py:1001-1011). *)
Fixpoint find_pivots (fuel : nat) (chart : list (list (item G))) A (start : nat)
    (stack : list (nt G * nat)) : out (list (nt G)) :=
  match fuel with
  | O => NoFuel
  | S f =>
      if g_pivot A then Done [A]
      else
        let stack' := stack ++ [(A, start)] in
        concat_map_out
          (fun it =>
             if existsb (fun p => (if nt_dec (fst p) (it_nt it) then true else false)
                                  && (snd p =? it_start it)) stack'
             then Done []
             else find_pivots f chart (it_nt it) (it_start it) stack')
          (filter (waits A) (nth start chart []))
  end.

(** One line of [expected]: a terminal with the pivots it was expected in, or
    'end of data'. *)
Inductive expectation :=
| ExpTerminal (bits : N) (pivots : list (nt G))
| ExpEnd.

(** [ParseError] (httpolice/parse.py:146-170): position, the byte found there
    ([None] for the end of data), and the expectations, one per item in item
    order.  The Python code groups these lines by the text describing the
    terminal. *)
Record parse_error := ParseError {
  pe_position : nat;
  pe_found : option N;
  pe_expected : list expectation
}.

(** The index of the last non-empty inventory, with that inventory
    (httpolice/parse.py:977-979). *)
Fixpoint last_nonempty (i : nat) (chart : list (list (item G)))
  : option (nat * list (item G)) :=
  match chart with
  | [] => None
  | items :: chart' =>
      match last_nonempty (S i) chart' with
      | Some r => Some r
      | None => match items with [] => None | _ => Some (i, items) end
      end
  end.

(** [_build_parse_error] (httpolice/parse.py:974-998); taking the last
    element of an empty list is an [IndexError]. *)
Definition build_parse_error (fuel : nat) (data : str) A
    (chart : list (list (item G))) : out parse_error :=
  match last_nonempty 0 chart with
  | None => Crash
  | Some (i, items) =>
      obind
        (concat_map_out
           (fun it =>
              obind
                (match next_sym it with
                 | Some (Tm bits) =>
                     obind (find_pivots fuel chart (it_nt it) (it_start it) [])
                           (fun ps => Done [ExpTerminal bits ps])
                 | _ => Done []
                 end)
                (fun l =>
                   Done (l ++ match next_sym it with
                              | None => if nt_dec (it_nt it) A then [ExpEnd] else []
                              | Some _ => []
                              end)))
           items)
        (fun l => Done (ParseError i (nth_error data i) l))
  end.

(** What [_inner_parse] does in the end: return a result or raise
    [ParseError]. *)
Inductive parsed :=
| Accepted (r : R)
| Rejected (e : parse_error).

(** [_inner_parse] (httpolice/parse.py:725-800). *)
Definition inner_parse (fuel : nat) (data : str) A : out parsed :=
  obind (build_chart fuel data A) (fun ci =>
    let (chart, i) := ci in
    let fail := obind (build_parse_error fuel data A chart) (fun e => Done (Rejected e)) in
    if i =? List.length data then
      obind (find_results fuel data chart (Nt A) i []) (fun rs =>
        match first_at_0 rs with
        | Some r => Done (Accepted r)
        | None => fail
        end)
    else fail).

End Search.
End Earley.
