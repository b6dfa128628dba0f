(** The value that a header of a message has, as a relation. *)
From Coq Require Import String.
From Verif Require Import Base Grammar Header P_Header ChecksBase.
Open Scope nat_scope.
Open Scope list_scope.
Unset Strict Implicit.

Definition header_value (E : env) (m : msg) (name : string) (u : val) : Prop :=
  exists v, view_is (e_read E) (m_entries m) (s name) v /\ v_value v = u.
