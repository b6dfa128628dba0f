(** Specification: characters and strings of HTTP, written from the RFCs. *)
From Coq Require Import String.
From Verif Require Import Base.
Local Open Scope N_scope.
Unset Strict Implicit.

(** A set of characters given by a list of them. *)
Definition among (l : str) (c : N) : bool := existsb (N.eqb c) l.

(** RFC 5234 B.1 *)
Definition is_digit (c : N) : bool := (48 <=? c) && (c <=? 57).
Definition is_alpha (c : N) : bool := (65 <=? c) && (c <=? 90) || (97 <=? c) && (c <=? 122).
Definition is_vchar (c : N) : bool := (33 <=? c) && (c <=? 126).
Definition is_ws (c : N) : bool := (c =? 9) || (c =? 32).
(** RFC 7230 3.2.6 *)
Definition is_tchar (c : N) : bool := is_digit c || is_alpha c || among (s "!#$%&'*+-.^_`|~") c.
Definition is_obs_text (c : N) : bool := (128 <=? c) && (c <=? 255).
Definition is_qdtext (c : N) : bool :=
  is_ws c || (c =? 33) || (35 <=? c) && (c <=? 91) || (93 <=? c) && (c <=? 126) || is_obs_text c.
Definition is_ctext (c : N) : bool :=
  is_ws c || (33 <=? c) && (c <=? 39) || (42 <=? c) && (c <=? 91) || (93 <=? c) && (c <=? 126) || is_obs_text c.
Definition is_escapable (c : N) : bool := is_ws c || is_vchar c || is_obs_text c.
(** RFC 7232 2.3 *)
Definition is_etagc (c : N) : bool :=
  (c =? 33) || (35 <=? c) && (c <=? 126) || is_obs_text c.

(** Strings of such characters. *)
Definition all (p : N -> bool) (w : str) : Prop := Forall (fun c => p c = true) w.
Definition all1 (p : N -> bool) (w : str) : Prop := w <> [] /\ all p w.
Definition ows (w : str) : Prop := all is_ws w.

(** The number spelled by decimal digits. *)
Definition decimal (w : str) : N := fold_left (fun n c => 10 * n + (c - 48)) w 0.

(** RFC 7230 3.2.6: read the inside of a quoted string up to the closing
    quote, which must be the last character.  Gives the text and the
    characters that were quoted by a backslash. *)
Fixpoint unquote (x : str) : option (str * str) :=
  match x with
  | [] => None
  | c :: x' =>
      if c =? 34 then match x' with [] => Some ([], []) | _ => None end
      else if c =? 92 then
        match x' with
        | d :: x'' =>
            if is_escapable d then
              match unquote x'' with Some (t, q) => Some (d :: t, d :: q) | None => None end
            else None
        | [] => None
        end
      else if is_qdtext c then
        match unquote x' with Some (t, q) => Some (c :: t, q) | None => None end
      else None
  end.

(** ** Lists (RFC 7230, section 7)

    The parts of a list between its commas: blanks, perhaps an element, and
    blanks.  [V] are the values of elements, [C] the complaints. *)
Section Lists.
Context {V C : Type}.
(** [element w v cs]: [w] is an element with value [v] and complaints [cs]. *)
Variable element : str -> V -> list C -> Prop.

Record part := Part { p_before : str; p_element : option (str * V * list C); p_after : str }.
Definition part_ok (p : part) : Prop :=
  ows (p_before p) /\ ows (p_after p) /\
  match p_element p with
  | Some (w, v, cs) => element w v cs
  | None => p_after p = []
  end.
Definition part_text (p : part) : str :=
  p_before p ++ match p_element p with Some (w, _, _) => w | None => [] end ++ p_after p.

Fixpoint commas (l : list str) : str :=
  match l with
  | [] => []
  | [x] => x
  | x :: l' => x ++ 44 :: commas l'
  end.
Definition list_text (l : list part) : str := commas (map part_text l).
Definition list_values (l : list part) : list V :=
  flat_map (fun p => match p_element p with Some (_, v, _) => [v] | None => [] end) l.
Definition list_complaints (l : list part) : list C :=
  flat_map (fun p => match p_element p with Some (_, _, cs) => cs | None => [] end) l.
Definition empty_part (p : part) : Prop := p_element p = None.
(** No blanks before the first comma or element; none after the last. *)
Definition trimmed_left (l : list part) : Prop := match l with p :: _ => p_before p = [] | [] => True end.
Definition trimmed_right (l : list part) : Prop :=
  match rev l with
  | p :: _ => match p_element p with Some _ => p_after p = [] | None => p_before p = [] end
  | [] => True
  end.
End Lists.
