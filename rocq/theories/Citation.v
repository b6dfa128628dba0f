(** Citations of documents (httpolice/citation.py). *)
From Coq Require Import String.
From Verif Require Import Base Grammar Actions.
Open Scope nat_scope.
Open Scope list_scope.
Unset Strict Implicit.
Local Open Scope string_scope.
Local Open Scope list_scope.

(** [Citation(title, url)] (httpolice/citation.py:1-11), or
    [RFC(num, section, appendix, errata)] (25-52). *)
Inductive cite :=
| Document (title : option str) (url : str)
| RFC (num : N) (section appendix : option str) (errata : option N).

(** [assert] in httpolice/citation.py:37.  Strings here are not empty and errata
    are not zero, so each that is there is true. *)
Definition given {A} (x : option A) : nat := match x with Some _ => 1 | None => 0 end.
Definition cite_valid (c : cite) : bool :=
  match c with
  | Document _ _ => true
  | RFC _ section appendix errata => Nat.leb (given section + given appendix + given errata) 1
  end.
(** The no-break space. *)
Definition nbsp : str := [160%N].
(** httpolice/citation.py:42-52 *)
Definition rfc_title (num : N) (section appendix : option str) (errata : option N) : str :=
  s "RFC" ++ nbsp ++ dec_str num ++
  match errata with
  | Some _ => s " errata"
  | None =>
      match section, appendix with
      | Some x, _ => s " " ++ [167%N] ++ nbsp ++ x
      | None, Some x => s " appendix" ++ nbsp ++ x
      | None, None => []
      end
  end.
Definition rfc_url (num : N) (section appendix : option str) (errata : option N) : str :=
  match errata with
  | Some n => s "https://www.rfc-editor.org/errata_search.php?eid=" ++ dec_str n
  | None =>
      s "https://tools.ietf.org/html/rfc" ++ dec_str num ++
      match section, appendix with
      | Some x, _ => s "#section-" ++ x
      | None, Some x => s "#appendix-" ++ x
      | None, None => []
      end
  end.
(** [cite.title], [cite.url]. *)
Definition cite_title (c : cite) : option str :=
  match c with Document t _ => t | RFC num section appendix errata => Some (rfc_title num section appendix errata) end.
Definition cite_url (c : cite) : str :=
  match c with Document _ u => u | RFC num section appendix errata => rfc_url num section appendix errata end.
