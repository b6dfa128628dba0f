(** What it means for a string to belong to the language of a grammar, for a
    tree to be a derivation of it, and for a prefix to be continuable.  This
    file knows nothing of charts, items or searches. *)
From Verif Require Import Base Earley.
Open Scope nat_scope.
Unset Strict Implicit.

Section Spec.
Context {G : grammar}.

(** The sequence of symbols [ss] derives the string [w]. *)
Inductive derives : list (sym (nt G)) -> str -> Prop :=
| derives_nil : derives [] []
| derives_tm bits c ss w :
    N.testbit bits c = true -> derives ss w -> derives (Tm bits :: ss) (c :: w)
| derives_nt A r ss u w :
    In r (g_rules A) -> derives (g_rhs r) u -> derives ss w ->
    derives (Nt A :: ss) (u ++ w).

(** The language of a nonterminal. *)
Definition generates (A : nt G) (w : str) : Prop :=
  exists r, In r (g_rules A) /\ derives (g_rhs r) w.

(** [w] can be continued to a string of the language. *)
Definition viable (A : nt G) (w : str) : Prop := exists v, generates A (w ++ v).

(** Derivation trees. *)
Inductive tree :=
| Leaf (c : N)
| Node (A : nt G) (r : rl G) (f : forest)
with forest :=
| Fnil
| Fcons (t : tree) (f : forest).

Fixpoint tree_yield (t : tree) : str :=
  match t with
  | Leaf c => [c]
  | Node _ _ f => forest_yield f
  end
with forest_yield (f : forest) : str :=
  match f with
  | Fnil => []
  | Fcons t f' => tree_yield t ++ forest_yield f'
  end.

(** The tree is built by the rules and its root is the symbol. *)
Inductive tree_of : sym (nt G) -> tree -> Prop :=
| tree_of_leaf bits c : N.testbit bits c = true -> tree_of (Tm bits) (Leaf c)
| tree_of_node A r f :
    In r (g_rules A) -> forest_of (g_rhs r) f -> tree_of (Nt A) (Node A r f)
with forest_of : list (sym (nt G)) -> forest -> Prop :=
| forest_of_nil : forest_of [] Fnil
| forest_of_cons x ss t f :
    tree_of x t -> forest_of ss f -> forest_of (x :: ss) (Fcons t f).

(** The meaning of a tree that begins at offset [k] of the input, by the
    semantic actions, bottom-up and left to right.  A repetition [many(x)] is
    a left-recursive chain of nodes; its meaning is made from the list of the
    meanings of the repeated elements. *)
Section Meaning.
Context {R : Type}.
Variable leaf : N -> R.
Variable act : nt G -> rl G -> nat -> nat -> list R -> R.
Variable act_rep : list R -> R.

Fixpoint meaning (k : nat) (t : tree) {struct t} : R :=
  match t with
  | Leaf c => leaf c
  | Node A r f =>
      if rep_rule A r then act_rep (elements k f)
      else act A r k (k + List.length (forest_yield f)) (meanings k f)
  end
with meanings (k : nat) (f : forest) {struct f} : list R :=
  match f with
  | Fnil => []
  | Fcons t f' => meaning k t :: meanings (k + List.length (tree_yield t)) f'
  end
with elements (k : nat) (f : forest) {struct f} : list R :=
  match f with
  | Fnil => []
  | Fcons t f' =>
      match t with
      | Node A r g => if rep_rule A r then elements k g else []
      | Leaf _ => []
      end ++ meanings (k + List.length (tree_yield t)) f'
  end.
End Meaning.

(** ** Conditions on grammars *)

(** Finitely many nonterminals are reachable from [A]. *)
Definition closed (nts : list (nt G)) : Prop :=
  forall A r B, In A nts -> In r (g_rules A) -> In (Nt B) (g_rhs r) -> In B nts.

Definition finite_from (A : nt G) : Prop := exists nts, In A nts /\ closed nts.

(** [RepeatedNonterminal.rules] (httpolice/parse.py:421-437): an unrolled
    repetition consists of an empty rule and one left-recursive rule. *)
Definition rep_ok : Prop :=
  forall (A : nt G) (r : rl G), In r (g_rules A) -> rep_rule A r = true ->
    (exists x, g_rhs r = [Nt A; x])
    /\ (exists r0, In r0 (g_rules A) /\ g_rhs r0 = [])
    /\ (forall r', In r' (g_rules A) -> g_rhs r' = [] \/ r' = r).

(** The recursion of [is_nullable] ends, within some depth, for every
    nonterminal reachable from [A] (otherwise Python raises
    [RecursionError]). *)
Inductive reach (A : nt G) : nt G -> Prop :=
| reach_refl : reach A A
| reach_step B r C : reach A B -> In r (g_rules B) -> In (Nt C) (g_rhs r) -> reach A C.

Definition nullable_ends (A : nt G) : Prop :=
  exists f, forall B, reach A B -> exists b, is_nullable f B = Done b.

(** Every nonterminal reachable from [A] generates some string, and every
    terminal contains some octet. *)
Definition productive (A : nt G) : Prop :=
  forall B r, reach A B -> In r (g_rules B) -> exists w, derives (g_rhs r) w.

End Spec.
Arguments tree G : clear implicits.
Arguments forest G : clear implicits.

Scheme tree_mut := Induction for tree Sort Prop
  with forest_mut := Induction for forest Sort Prop.
Combined Scheme tree_forest_ind from tree_mut, forest_mut.
Scheme tree_of_mut := Induction for tree_of Sort Prop
  with forest_of_mut := Induction for forest_of Sort Prop.
Combined Scheme tree_forest_of_ind from tree_of_mut, forest_of_mut.

(** Unfolding equations. *)
Section Equations.
Context {G : grammar} {R : Type}.
Variable leaf : N -> R.
Variable act : nt G -> rl G -> nat -> nat -> list R -> R.
Variable act_rep : list R -> R.

Lemma yield_leaf c : tree_yield (Leaf c : tree G) = [c].
Proof. reflexivity. Qed.
Lemma yield_node (A : nt G) r f : tree_yield (Node A r f) = forest_yield f.
Proof. reflexivity. Qed.
Lemma yield_fnil : forest_yield (Fnil : forest G) = [].
Proof. reflexivity. Qed.
Lemma yield_fcons (t : tree G) f : forest_yield (Fcons t f) = tree_yield t ++ forest_yield f.
Proof. reflexivity. Qed.
Lemma meaning_leaf k c : meaning leaf act act_rep k (Leaf c) = leaf c.
Proof. reflexivity. Qed.
Lemma meaning_node k A r f :
  meaning leaf act act_rep k (Node A r f)
  = if rep_rule A r then act_rep (elements leaf act act_rep k f)
    else act A r k (k + List.length (forest_yield f)) (meanings leaf act act_rep k f).
Proof. reflexivity. Qed.
Lemma meanings_fnil k : meanings leaf act act_rep k Fnil = [].
Proof. reflexivity. Qed.
Lemma meanings_fcons k t f :
  meanings leaf act act_rep k (Fcons t f)
  = meaning leaf act act_rep k t :: meanings leaf act act_rep (k + List.length (tree_yield t)) f.
Proof. reflexivity. Qed.
Lemma elements_fnil k : elements leaf act act_rep k Fnil = [].
Proof. reflexivity. Qed.
Lemma elements_fcons k t f :
  elements leaf act act_rep k (Fcons t f)
  = match t with
    | Node A r g => if rep_rule A r then elements leaf act act_rep k g else []
    | Leaf _ => []
    end ++ meanings leaf act act_rep (k + List.length (tree_yield t)) f.
Proof. reflexivity. Qed.
End Equations.
#[export] Hint Rewrite @yield_leaf @yield_node @yield_fnil @yield_fcons @meaning_leaf @meaning_node
  @meanings_fnil @meanings_fcons @elements_fnil @elements_fcons : trees.
