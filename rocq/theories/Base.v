(** Shared vocabulary of the model: Python byte strings and Unicode strings
    are both lists of [N] (a code point, or a byte below 256).  With this
    choice [bytes.decode('iso-8859-1')] is the identity function, as it is in
    Python (code point = byte value). *)
From Coq Require Export List NArith ZArith Lia Bool String Ascii.
From Coq Require Import ZifyBool ZifyNat ZifyN.
Export ListNotations.
#[export] Set Implicit Arguments.
Open Scope list_scope.
Open Scope N_scope.

(** A Python [bytes] or [str]. *)
Definition str := list N.

(** String literals. *)
Definition s (x : string) : str := map N_of_ascii (list_ascii_of_string x).

(** [a == b] on Python strings. *)
Fixpoint str_eqb (a b : str) : bool :=
  match a, b with
  | [], [] => true
  | x :: a', y :: b' => (x =? y) && str_eqb a' b'
  | _, _ => false
  end.

Lemma str_eqb_eq a b : str_eqb a b = true <-> a = b.
Proof.
  revert b; induction a as [|x a IH]; destruct b as [|y b]; simpl; split; intro H;
    try congruence; try easy.
  - apply andb_true_iff in H. destruct H as [H1 H2].
    apply N.eqb_eq in H1. apply IH in H2. congruence.
  - injection H as -> ->. rewrite N.eqb_refl. simpl. now apply IH.
Qed.

Lemma str_eqb_refl a : str_eqb a a = true.
Proof. now apply str_eqb_eq. Qed.

Lemma str_eqb_neq a b : str_eqb a b = false <-> a <> b.
Proof.
  split; intro H.
  - intro E. apply str_eqb_eq in E. congruence.
  - destruct (str_eqb a b) eqn:E; [|reflexivity]. apply str_eqb_eq in E. easy.
Qed.

(** [len(x)], as a binary number. *)
Fixpoint lenN {A} (l : list A) : N :=
  match l with [] => 0 | _ :: l' => N.succ (lenN l') end.

Lemma lenN_length {A} (l : list A) : lenN l = N.of_nat (List.length l).
Proof. induction l as [|x l IH]; simpl lenN; [reflexivity|]. rewrite IH. simpl List.length. lia. Qed.

Lemma lenN_app {A} (l1 l2 : list A) : lenN (l1 ++ l2) = lenN l1 + lenN l2.
Proof. rewrite !lenN_length, app_length. lia. Qed.

(** Split off the first [n] elements: [(x[:n], x[n:])]. *)
Fixpoint takeN {A} (n : N) (l : list A) : list A * list A :=
  match l with
  | [] => ([], [])
  | x :: l' =>
      if n =? 0 then ([], l)
      else let (a, b) := takeN (N.pred n) l' in (x :: a, b)
  end.

Lemma takeN_app {A} n (l : list A) : fst (takeN n l) ++ snd (takeN n l) = l.
Proof.
  revert n; induction l as [|x l IH]; intro n; simpl; [reflexivity|].
  destruct (n =? 0); [reflexivity|].
  specialize (IH (N.pred n)). destruct (takeN (N.pred n) l) as [a b]. simpl in *. congruence.
Qed.

Lemma takeN_len {A} n (l : list A) : lenN (fst (takeN n l)) = N.min n (lenN l).
Proof.
  revert n; induction l as [|x l IH]; intro n; simpl takeN; simpl lenN; [simpl; lia|].
  destruct (n =? 0) eqn:E; [apply N.eqb_eq in E; subst; simpl; lia|].
  apply N.eqb_neq in E.
  specialize (IH (N.pred n)). destruct (takeN (N.pred n) l) as [a b]. cbn [fst lenN] in *. lia.
Qed.

Lemma takeN_exact {A} (a b : list A) : takeN (lenN a) (a ++ b) = (a, b).
Proof.
  induction a as [|x a IH]; [destruct b; reflexivity|].
  cbn [lenN app takeN].
  destruct (N.succ (lenN a) =? 0) eqn:E; [apply N.eqb_eq in E; lia|].
  rewrite N.pred_succ, IH. reflexivity.
Qed.

Lemma takeN_firstn {A} n (l : list A) :
  takeN n l = (firstn (N.to_nat n) l, skipn (N.to_nat n) l).
Proof.
  revert n; induction l as [|x l IH]; intro n; simpl takeN.
  - now rewrite firstn_nil, skipn_nil.
  - destruct (n =? 0) eqn:E.
    + apply N.eqb_eq in E. subst. reflexivity.
    + apply N.eqb_neq in E. rewrite IH.
      replace (N.to_nat n) with (S (N.to_nat (N.pred n))) by lia. reflexivity.
Qed.

(** Membership of an [N] in a list, as [x in xs]. *)
Definition memN (x : N) (l : list N) : bool := existsb (N.eqb x) l.

Lemma memN_In x l : memN x l = true <-> In x l.
Proof.
  unfold memN. rewrite existsb_exists. split.
  - intros [y [H1 H2]]. apply N.eqb_eq in H2. now subst.
  - intro H. exists x. now rewrite N.eqb_refl.
Qed.

(** Well-formed byte strings: every element is below 256. *)
Definition bytes_ok (l : str) : Prop := Forall (fun c => c < 256) l.

(** [str.lower()] restricted to ISO-8859-1 (A-Z, and À-Þ except the
    multiplication sign).  All strings the modelled code lowers are decoded
    from ISO-8859-1. *)
Definition lower_char (c : N) : N :=
  if (65 <=? c) && (c <=? 90) then c + 32
  else if (192 <=? c) && (c <=? 222) && negb (c =? 215) then c + 32
  else c.

Definition lower (x : str) : str := map lower_char x.

Lemma lower_char_idem c : lower_char (lower_char c) = lower_char c.
Proof.
  unfold lower_char.
  destruct ((65 <=? c) && (c <=? 90)) eqn:E1.
  - destruct ((65 <=? c + 32) && (c + 32 <=? 90)) eqn:E2; [lia|].
    destruct ((192 <=? c + 32) && (c + 32 <=? 222) && negb (c + 32 =? 215)) eqn:E3; [lia|reflexivity].
  - destruct ((192 <=? c) && (c <=? 222) && negb (c =? 215)) eqn:E4.
    + destruct ((65 <=? c + 32) && (c + 32 <=? 90)) eqn:E2; [lia|].
      destruct ((192 <=? c + 32) && (c + 32 <=? 222) && negb (c + 32 =? 215)) eqn:E3; [lia|reflexivity].
    + now rewrite E1, E4.
Qed.

Lemma lower_idem x : lower (lower x) = lower x.
Proof. unfold lower. rewrite map_map. apply map_ext. intro. apply lower_char_idem. Qed.

(** Equality of [CaseInsensitive] strings: httpolice/structure.py:157-160. *)
Definition ci_eqb (a b : str) : bool := str_eqb (lower a) (lower b).

Lemma ci_eqb_eq a b : ci_eqb a b = true <-> lower a = lower b.
Proof. apply str_eqb_eq. Qed.

Lemma ci_eqb_refl a : ci_eqb a a = true.
Proof. now apply ci_eqb_eq. Qed.

(** [x.partition(sep)] for a one-byte separator: [None] when it is absent. *)
Fixpoint partition_at (sep : N) (x : str) : option (str * str) :=
  match x with
  | [] => None
  | c :: x' =>
      if c =? sep then Some ([], x')
      else match partition_at sep x' with
           | Some (a, b) => Some (c :: a, b)
           | None => None
           end
  end.

Lemma partition_at_some sep x a b :
  partition_at sep x = Some (a, b) -> x = a ++ sep :: b /\ ~ In sep a.
Proof.
  revert a b; induction x as [|c x IH]; intros a b H; simpl in H; [discriminate|].
  destruct (c =? sep) eqn:E.
  - apply N.eqb_eq in E. injection H as <- <-. subst. auto.
  - apply N.eqb_neq in E. destruct (partition_at sep x) as [[a' b']|] eqn:E2; [|discriminate].
    injection H as <- <-. destruct (IH _ _ eq_refl) as [-> H2]. simpl. split; [reflexivity|].
    intros [H|H]; congruence.
Qed.

Lemma partition_at_app sep a b :
  ~ In sep a -> partition_at sep (a ++ sep :: b) = Some (a, b).
Proof.
  induction a as [|c a IH]; intro H; simpl.
  - now rewrite N.eqb_refl.
  - destruct (c =? sep) eqn:E; [apply N.eqb_eq in E; subst; exfalso; apply H; now left|].
    rewrite IH; [reflexivity|]. intro. apply H. now right.
Qed.

Lemma partition_at_none sep x : partition_at sep x = None <-> ~ In sep x.
Proof.
  induction x as [|c x IH]; simpl; [split; auto|].
  destruct (c =? sep) eqn:E.
  - apply N.eqb_eq in E. split; [discriminate|]. intro H. exfalso. apply H. auto.
  - apply N.eqb_neq in E. destruct (partition_at sep x) as [[a b]|] eqn:P; split; intro H; try easy.
    + exfalso. assert (Some (a, b) = None) as D by (apply IH; tauto). discriminate D.
    + tauto.
Qed.

(** [x.split(sep)] for a one-byte separator. *)
Fixpoint split_on (sep : N) (x : str) : list str :=
  match x with
  | [] => [[]]
  | c :: x' =>
      if c =? sep then [] :: split_on sep x'
      else match split_on sep x' with
           | p :: ps => (c :: p) :: ps
           | [] => [[c]]
           end
  end.

Lemma split_on_no_sep sep x : ~ In sep x -> split_on sep x = [x].
Proof.
  induction x as [|c x IH]; intro H; simpl; [reflexivity|].
  destruct (c =? sep) eqn:E; [apply N.eqb_eq in E; subst; exfalso; apply H; now left|].
  rewrite IH; [reflexivity|]. intro. apply H. now right.
Qed.

Lemma split_on_app sep a b :
  ~ In sep a -> split_on sep (a ++ sep :: b) = a :: split_on sep b.
Proof.
  induction a as [|c a IH]; intro H; simpl.
  - now rewrite N.eqb_refl.
  - destruct (c =? sep) eqn:E; [apply N.eqb_eq in E; subst; exfalso; apply H; now left|].
    rewrite IH; [reflexivity|]. intro. apply H. now right.
Qed.

(** [x.split(sep, 2)]. *)
Definition split_on_2 (sep : N) (x : str) : list str :=
  match partition_at sep x with
  | None => [x]
  | Some (a, r) =>
      match partition_at sep r with
      | None => [a; r]
      | Some (b, c) => [a; b; c]
      end
  end.

(** [x.lstrip(b' \t')], [x.rstrip(b' \t')], [x.strip(b' \t')]. *)
Definition is_blank (c : N) : bool := (c =? 32) || (c =? 9).

Fixpoint lstrip (x : str) : str :=
  match x with
  | [] => []
  | c :: x' => if is_blank c then lstrip x' else x
  end.

Fixpoint rstrip (x : str) : str :=
  match x with
  | [] => []
  | c :: x' =>
      match rstrip x' with
      | [] => if is_blank c then [] else [c]
      | y => c :: y
      end
  end.

Definition strip (x : str) : str := lstrip (rstrip x).

(** A string with no blank at either end. *)
Definition trimmed (x : str) : Prop :=
  (forall c r, x = c :: r -> is_blank c = false) /\
  (forall c r, x = r ++ [c] -> is_blank c = false).

Lemma lstrip_nonblank_head x :
  (forall c r, x = c :: r -> is_blank c = false) -> lstrip x = x.
Proof.
  destruct x as [|c x]; intro H; simpl; [reflexivity|]. now rewrite (H c x eq_refl).
Qed.

Lemma rstrip_nonblank_last x :
  (forall c r, x = r ++ [c] -> is_blank c = false) -> rstrip x = x.
Proof.
  induction x as [|c x IH]; intro H; simpl; [reflexivity|].
  destruct x as [|d x].
  - simpl. now rewrite (H c [] eq_refl).
  - rewrite IH.
    + reflexivity.
    + intros e r E. apply (H e (c :: r)). rewrite E. reflexivity.
Qed.

Lemma strip_trimmed x : trimmed x -> strip x = x.
Proof.
  intros [H1 H2]. unfold strip. rewrite rstrip_nonblank_last by assumption.
  now apply lstrip_nonblank_head.
Qed.

Lemma lstrip_blank_app b x : Forall (fun c => is_blank c = true) b -> lstrip (b ++ x) = lstrip x.
Proof. induction 1 as [|c b H Hb IH]; simpl; [reflexivity|]. now rewrite H. Qed.

Lemma rstrip_blanks b : Forall (fun c => is_blank c = true) b -> rstrip b = [].
Proof. induction 1 as [|c b H Hb IH]; simpl; [reflexivity|]. now rewrite IH, H. Qed.

Lemma rstrip_app_blank x b : Forall (fun c => is_blank c = true) b -> rstrip (x ++ b) = rstrip x.
Proof.
  intro H. induction x as [|c x IH]; simpl; [now apply rstrip_blanks|]. now rewrite IH.
Qed.

Lemma rstrip_app_nonnil a x : rstrip x <> [] -> rstrip (a ++ x) = a ++ rstrip x.
Proof.
  intro H. induction a as [|c a IH]; simpl; [reflexivity|].
  rewrite IH. destruct (a ++ rstrip x) eqn:E; [|reflexivity].
  apply app_eq_nil in E. destruct E. contradiction.
Qed.

Lemma strip_pad b1 x b2 :
  Forall (fun c => is_blank c = true) b1 -> Forall (fun c => is_blank c = true) b2 ->
  trimmed x -> strip (b1 ++ x ++ b2) = x.
Proof.
  intros H1 H2 [Hx1 Hx2]. unfold strip.
  rewrite app_assoc, rstrip_app_blank by assumption.
  destruct x as [|c x].
  - rewrite app_nil_r, rstrip_blanks by assumption. reflexivity.
  - rewrite rstrip_app_nonnil; rewrite (rstrip_nonblank_last (x := c :: x)) by assumption;
      [|discriminate].
    rewrite lstrip_blank_app by assumption. now apply lstrip_nonblank_head.
Qed.

(** [x in xs] for strings. *)
Definition mem_str (x : str) (l : list str) : bool := existsb (str_eqb x) l.

Lemma mem_str_In x l : mem_str x l = true <-> In x l.
Proof.
  unfold mem_str. rewrite existsb_exists. split.
  - intros [y [H1 H2]]. apply str_eqb_eq in H2. now subst.
  - intro H. exists x. now rewrite str_eqb_refl.
Qed.

(** Decimal digits and [int(x)] on a run of ASCII digits. *)
Definition is_digit (c : N) : bool := (48 <=? c) && (c <=? 57).

Fixpoint dec_value_from (acc : N) (x : str) : N :=
  match x with [] => acc | c :: x' => dec_value_from (10 * acc + (c - 48)) x' end.

Definition dec_value (x : str) : N := dec_value_from 0 x.
