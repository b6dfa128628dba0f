(** The command-line interface (httpolice/cli.py), and the identifiers in HTML
    reports (httpolice/reports/html.py:231-249). *)
From Coq Require Import String.
From Verif Require Import Base Catalogue Blackboard TextReport.
Open Scope nat_scope.
Open Scope list_scope.
Unset Strict Implicit.

(** ** [run_cli] *)

(** An exception: one that [run_cli] catches ([EnvironmentError] or [InputError],
    httpolice/cli.py:61), or any other. *)
Inductive failure := Caught | Uncaught.
(** How the program ends: by returning a status, or by an exception that is not
    caught. *)
Inductive ending := Exit (status : nat) | Crash.

Section Cli.
Context {Ctx : Type}.
Variable same_ctx : Ctx -> Ctx -> bool.
Variable request_of : nat -> option nat.
Variable responses_of : nat -> list nat.
(** Is the id a key of [all_notices]? *)
Definition known_notice (id : N) : bool := match severity_of id with Some _ => true | None => false end.
Notation run := (run same_ctx known_notice request_of responses_of).

(** What the input gives: exchanges one by one, with the complaints made while
    reading each of them, and perhaps an exception at the end (also if it comes
    from what the report writes at the end). *)
Variable read_ops : nat -> list (@op Ctx).
Variable read_end : option failure.
(** What [check_exchange] does on an exchange: complaints and silences, and
    perhaps an exception. *)
Variable check : nat -> list (@op Ctx) * option failure.
(** What the report does with an exchange that it is given: it may raise an
    exception, such as one of the output file.  What it writes is left out; for
    the text report see TextReport.v. *)
Variable report : @heap Ctx -> nat -> option failure.
(** [args.silence] and [args.fail_on] (httpolice/cli.py:24-30). *)
Variable silenced : list N.
Variable fail_on : option severity.

(** [n_notices.update(...)] (httpolice/cli.py:46-48): the severities of the visible
    complaints on the exchange and on its children. *)
Definition severities (h : @heap Ctx) (e : nat) : list severity :=
  flat_map (fun o => flat_map (fun c : N * Ctx => match severity_of (fst c) with Some sv => [sv] | None => [] end) (complaints h o))
    (Exch e :: children request_of responses_of (Exch e)).
(** [report(generate_exchanges(), ...)] (httpolice/cli.py:41-49, 60): the history of
    complaints and silences so far and the severities counted so far, or an
    exception. *)
Fixpoint generate (history : list (@op Ctx)) (counted : list severity) (es : list nat) : list severity + failure :=
  match es with
  | [] => match read_end with None => inl counted | Some f => inr f end
  | e :: es' =>
      let before := history ++ read_ops e ++ (match silenced with [] => [] | _ => [Silence (Exch e) (Collection silenced)] end) in
      match check e with
      | (_, Some f) => inr f
      | (ops, None) =>
          let after := before ++ ops in
          let counted' := counted ++ severities (run after) e in
          match report (run after) e with
          | Some f => inr f
          | None => generate after counted' es'
          end
      end
  end.
(** [run_cli] (httpolice/cli.py:37-71).  The counter is a list: how often a severity
    was counted is how often it occurs. *)
Definition severity_eqb (a b : severity) : bool := Nat.eqb (severity_rank a) (severity_rank b).
Definition run_cli (es : list nat) : ending :=
  match generate [] [] es with
  | inr Caught => Exit 1
  | inr Uncaught => Crash
  | inl counted =>
      match fail_on with
      | None => Exit 0
      | Some threshold =>
          if existsb (fun sv => severity_le threshold sv && existsb (severity_eqb sv) counted) [Error; Comment; Debug] then Exit 1 else Exit 0
      end
  end.
End Cli.

(** ** Identifiers in HTML reports *)

(** [_seen_ids], as a list of keys and values, and [_anonymize_id]
    (httpolice/reports/html.py:231-236). *)
Definition seen_ids : Type := list (N * nat).
Definition anonymize (st : seen_ids) (k : N) : seen_ids * nat :=
  match find (fun p => N.eqb (fst p) k) st with
  | Some p => (st, snd p)
  | None => (st ++ [(k, List.length st)], List.length st)
  end.
Fixpoint anonymize_all (st : seen_ids) (ks : list N) : list nat :=
  match ks with
  | [] => []
  | k :: ks' => let (st', r) := anonymize st k in r :: anonymize_all st' ks'
  end.
(** What [_reference_ids] is given (httpolice/reports/html.py:239-249): an object,
    by the number that [id()] gives for it; a list; a header view, with its
    entries. *)
Inductive referent := Object (id : N) | Several (l : list referent) | HeaderOf (entries : list N).
Fixpoint referent_ids (r : referent) : list N :=
  match r with
  | Object k => [k]
  | Several l => flat_map referent_ids l
  | HeaderOf l => l
  end.
(** [_reference_ids] of one object after another. *)
Definition reference_ids (rs : list referent) : list nat := anonymize_all [] (flat_map referent_ids rs).
