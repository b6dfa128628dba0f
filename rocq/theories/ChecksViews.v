(** What the checks see when they look at a header of a message. *)
From Coq Require Import ZifyBool ZifyNat ZifyN String.
From Verif Require Import Base Earley Grammar Syntax Actions Nested P_Types Text Structure Known Tables Header HeaderProofs P_Header P_Views Values ChecksBase ChecksLogic.
Open Scope nat_scope.
Open Scope list_scope.
Unset Strict Implicit.
Local Open Scope string_scope.
Local Open Scope list_scope.

Lemma has_bad_crashed v : has_bad v = true <-> crashed v.
Proof.
  split.
  - revert v. fix IH 1. intros v H. destruct v; cbn [has_bad] in H; try discriminate H; try (now constructor).
    all: match type of H with existsb _ ?l = true => assert (Q : exists u, In u l /\ crashed u) end;
      [|destruct Q as [u [I C]]; econstructor; eassumption].
    all: match type of H with existsb _ ?l = true => induction l as [|u l IHl]; [discriminate H|]; cbn [existsb] in H; apply orb_true_iff in H; destruct H as [H|H];
      [exists u; split; [now left|exact (IH u H)]|destruct (IHl H) as [u' [I C]]; exists u'; split; [now right|exact C]] end.
  - induction 1; cbn [has_bad]; [reflexivity| | |]; apply existsb_exists; eauto.
Qed.

Section Views.
Variable E : env.
Hypothesis http : parses_http (e_read E).

(** A view is looked up, and is what Header.v says, except Link, which may
    raise. *)
Lemma view_run j name : exists v, view_is (e_read E) (m_entries (j_msg j)) name v /\
  view j name E = if has_bad (v_value v) then ([], Raise FromLink) else (map (lift (j_who j)) (v_notices v), Ok v).
Proof.
  destruct (class_of_total name) as [c C]. exists (parse_view (e_read E) c (m_entries (j_msg j)) name).
  split; [apply view_is_iff; eauto|]. unfold view. now rewrite C.
Qed.
Lemma view_calm j name : ~ P_Header.same_name name (s "Link") -> exists v, view_is (e_read E) (m_entries (j_msg j)) name v /\
  view j name E = (map (lift (j_who j)) (v_notices v), Ok v).
Proof.
  intro N. destruct (view_run j name) as [v [V R]]. exists v. split; [exact V|]. rewrite R.
  destruct (has_bad (v_value v)) eqn:B; [|reflexivity]. apply has_bad_crashed in B. destruct (C65_views http V N B).
Qed.
Lemma view_got j name v : snd (view j name E) = Ok v -> view_is (e_read E) (m_entries (j_msg j)) name v.
Proof. destruct (view_run j name) as [v' [V ->]]. destruct (has_bad _); cbn [snd]; intro H; [discriminate H|injection H as <-; exact V]. Qed.
Lemma view_unique read m name v v' : view_is read m name v -> view_is read m name v' -> v = v'.
Proof. rewrite !view_is_iff. intros [c [C ->]] [c' [C' ->]]. congruence. Qed.

(** Keys of headers. *)
Definition has_syntax (key : string) : bool :=
  existsb (fun i => str_eqb (hk_key i) (s key) && match hk_syntax i with Some _ => true | None => false end) header_table.
Lemma keys_known : forallb (fun kv => has_syntax (fst kv)) value_shapes = true.
Proof. vm_compute. reflexivity. Qed.
Fixpoint distinct (l : list str) : bool := match l with [] => true | x :: l' => negb (existsb (str_eqb x) l') && distinct l' end.
Lemma distinct_ok l : distinct l = true -> NoDup l.
Proof.
  induction l as [|x l IH]; cbn [distinct]; intro H; constructor; apply andb_true_iff in H; destruct H as [H K]; auto.
  intro I. apply negb_true_iff in H. rewrite <- not_true_iff_false in H. apply H. apply existsb_exists. exists x. split; [exact I|now apply str_eqb_eq].
Qed.
Lemma keys_distinct : distinct (map (fun kv => s (fst kv)) value_shapes) = true.
Proof. vm_compute. reflexivity. Qed.
Lemma nodup_map {A B} (f : A -> B) l x y : NoDup (map f l) -> In x l -> In y l -> f x = f y -> x = y.
Proof.
  induction l as [|z l IH]; intros N Ix Iy H; [destruct Ix|]. inversion N as [ | ? ? N1 N2]; subst.
  destruct Ix as [<-|Ix], Iy as [<-|Iy]; auto; exfalso; apply N1; [rewrite H|rewrite <- H]; now apply in_map.
Qed.

(** Values of headers have their shapes. *)
Lemma view_fits read m key sh v : parses_http read -> In (key, sh) value_shapes -> view_is read m (s key) v -> fits (view_shape key sh) (v_value v).
Proof.
  intros P I V. pose proof (proj1 (forallb_forall _ _) keys_known _ I) as K. cbn [fst] in K. apply existsb_exists in K. destruct K as [i [Ii K]].
  apply andb_true_iff in K. destruct K as [K1 K2]. apply str_eqb_eq in K1. destruct (hk_syntax i) as [x|] eqn:X; [|discriminate K2].
  assert (KA : known_as i (s key)) by (split; [exact Ii|rewrite K1; now apply same_name_lower]).
  destruct (C64_views P V KA X) as [key' [sh' [I' [K' F]]]].
  assert (Q : (key', sh') = (key, sh)).
  { apply (nodup_map (distinct_ok keys_distinct) I' I). cbn [fst]. congruence. }
  injection Q as -> ->. exact F.
Qed.
End Views.
