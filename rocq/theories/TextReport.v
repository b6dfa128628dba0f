(** The plain-text report (httpolice/reports/text.py). *)
From Coq Require Import String.
From Verif Require Import Base Grammar Text Actions Structure Known Tables Header Catalogue Titles Blackboard ChecksBase ChecksResponse Reports.
Open Scope nat_scope.
Open Scope list_scope.
Unset Strict Implicit.
Local Open Scope string_scope.
Local Open Scope list_scope.

(** ** Text *)

(** [str.isspace] of one character. *)
Definition is_space (c : N) : bool :=
  existsb (N.eqb c) [9; 10; 11; 12; 13; 28; 29; 30; 31; 32; 133; 160; 5760; 8192; 8193; 8194; 8195; 8196; 8197; 8198; 8199; 8200; 8201; 8202; 8232; 8233; 8239; 8287; 12288]%N.
(** [str.strip()]. *)
Fixpoint drop_spaces (x : str) : str :=
  match x with
  | c :: x' => if is_space c then drop_spaces x' else x
  | [] => []
  end.
Definition strip_spaces (x : str) : str := rev (drop_spaces (rev (drop_spaces x))).
Definition newline : str := [10%N].

(** What is left to print of a piece of data when it has been expanded
    (httpolice/reports/common.py:18-47): text, or a list. *)
Inductive tree := Leaf (x : str) | Branch (l : list tree).
(** [_piece_to_text] of data (httpolice/reports/text.py:63-78). *)
Fixpoint tree_text (t : tree) : str :=
  match t with
  | Leaf x => printable x
  | Branch l => flat_map tree_text l
  end.

(** ** One complaint *)

(** [Severity[tag].name[0].upper()] (httpolice/notice.py:56-57). *)
Definition severity_short (x : severity) : str := match x with Error => s "E" | Comment => s "C" | Debug => s "D" end.
(** [all_notices[id]] (httpolice/notice.py:171-183). *)
Definition severity_of (id : N) : option severity := option_map c_severity (find (fun n => N.eqb (c_id n) id) catalogue).
Definition title_of (id : N) : option (list piece) := option_map snd (find (fun t => N.eqb (fst t) id) titles).

Section Complaint.
Context {Ctx : Type}.
(** [resolve_reference] and the expansion of what it gives; [None] stands for an
    exception. *)
Variable resolve : Ctx -> list string -> option tree.

(** [_piece_to_text] (httpolice/reports/text.py:63-78). *)
Fixpoint pieces_text (ctx : Ctx) (l : list piece) : option str :=
  match l with
  | [] => Some []
  | p :: l' =>
      match (match p with Plain x | Term x => Some (printable x) | Var path => option_map tree_text (resolve ctx path) end), pieces_text ctx l' with
      | Some a, Some b => Some (a ++ b)
      | _, _ => None
      end
  end.
(** [_write_complaint_line] (httpolice/reports/text.py:56-60). *)
Definition complaint_line (c : N * Ctx) : option str :=
  match severity_of (fst c), title_of (fst c) with
  | Some sv, Some ps =>
      match pieces_text (snd c) ps with
      | Some t => Some (severity_short sv ++ s " " ++ dec_str (fst c) ++ s " " ++ detypographize (strip_spaces t) ++ newline)
      | None => None
      end
  | _, _ => None
  end.

(** ** The report *)

(** [write_if_any] (httpolice/util/text.py:114-150): what the body of the [with]
    block wrote, with its beginning, unless it is empty.  [None] is an exception;
    then nothing is written. *)
Definition write_if_any (beginning : str) (body : option str) : option str :=
  match body with
  | Some [] => Some []
  | Some x => Some (beginning ++ x)
  | None => None
  end.
Definition then_write (a b : option str) : option str :=
  match a, b with Some x, Some y => Some (x ++ y) | _, _ => None end.
Fixpoint write_all {A} (f : A -> option str) (l : list A) : option str :=
  match l with [] => Some [] | a :: l' => then_write (f a) (write_all f l') end.

(** [find_reason_phrase] (httpolice/reports/common.py:76-77). *)
Definition known_title (status : Z) : option str := option_map snd (find (fun t => Z.eqb (fst t) status) status_titles).
Definition reason_phrase (status : Z) (reason : option str) : str :=
  match reason with
  | Some (c :: r) => c :: r
  | _ => match known_title status with Some (c :: t) => c :: t | _ => s "(unknown)" end
  end.

(** The exchanges: their messages, by identity (see Blackboard.v), and what the
    report needs to know about a message. *)
Variable request_of : nat -> option nat.
Variable responses_of : nat -> list nat.
Variable method_of target_of : nat -> str.
Variable status_of : nat -> Z.
Variable reason_of : nat -> option str.

(** [_exchange_marker] (httpolice/reports/text.py:37-47). *)
Definition exchange_marker (e : nat) : str :=
  ellipsize (match request_of e with
             | Some q => s "------------ request: " ++ printable (method_of q) ++ s " " ++ printable (target_of q)
             | None => match responses_of e with _ :: _ => s "------------ unknown request" | [] => s "------------" end
             end) 79 ++ newline.
(** [_response_marker] (httpolice/reports/text.py:50-53). *)
Definition response_marker (p : nat) : str :=
  ellipsize (s "------------ response: " ++ show (status_of p) ++ s " " ++ printable (reason_phrase (status_of p) (reason_of p))) 60 ++ newline.

(** The visible notices on an object ([obj.complaints]). *)
Variable visible : obj -> list (N * Ctx).
(** The body of the loop over exchanges in [text_report]
    (httpolice/reports/text.py:25-34). *)
Definition exchange_text (e : nat) : option str :=
  write_if_any (exchange_marker e)
    (then_write (match request_of e with Some q => write_all complaint_line (visible (Msg q)) | None => Some [] end)
    (then_write (write_all (fun p => write_if_any (response_marker p) (write_all complaint_line (visible (Msg p)))) (responses_of e))
       (write_all complaint_line (visible (Exch e))))).
(** [text_report] (httpolice/reports/text.py:11-34): what is written, before it is
    encoded as UTF-8, and whether it ends normally. *)
Fixpoint text_report (es : list nat) : str * bool :=
  match es with
  | [] => ([], true)
  | e :: es' =>
      match exchange_text e with
      | Some x => let (out, done) := text_report es' in (x ++ out, done)
      | None => ([], false)
      end
  end.
End Complaint.

(** ** The data that notices of [check_exchange] refer to *)
Section Data.
Variable E : env.
Variable x : exchange.
(** [str()] of what is not described below. *)
Variable other : node -> str.

(** [expand_header] (httpolice/reports/common.py:37-47).  The model may have the
    name of an unknown header in lower case. *)
Definition canonical_name (name : str) : str := match header_of name with Some i => hk_key i | None => name end.
(** [WarnCode] and [StatusCode] (httpolice/structure.py:194-207, 361-369).  Numbers are written without leading zeros, whatever the message had. *)
Definition is_number (cls : str) : bool := str_eqb cls (s "WarnCode") || str_eqb cls (s "StatusCode").
(** [expand_piece] of a value (httpolice/reports/common.py:18-35); strings, of any
    class, and lists need no expansion (httpolice/reports/text.py:67-73). *)
Fixpoint tree_of_val (v : val) : tree :=
  match v with
  | VStr t => Leaf t
  | VInt z => Leaf (show z)
  | VNone => Leaf (s "None")
  | VList l => Branch (map tree_of_val l)
  | VObj cls [VStr t] => if is_number cls then Leaf (dec_str (dec_value t)) else Leaf t
  | VObj cls (item :: _) => if str_eqb cls (s "Parametrized") then tree_of_val item else Leaf (other (NValue v))
  | _ => Leaf (other (NValue v))
  end.
(** [expand_header] of an entry (httpolice/reports/common.py:37-47). *)
Definition entry_tree (w : who) (p : place) : tree :=
  match subject_at x w with
  | Some j =>
      match nth_error (if fst p then trailer_entries (m_entries (j_msg j)) else header_entries (m_entries (j_msg j))) (snd p) with
      | Some e => Leaf (canonical_name (e_name e))
      | None => Leaf (other (NArg (CEntry w p)))
      end
  | None => Leaf (other (NArg (CEntry w p)))
  end.
(** httpolice/reports/common.py:18-47 *)
Definition tree_of (n : node) : tree :=
  match n with
  | NView _ name => Leaf (canonical_name name)
  | NValue v => tree_of_val v
  | NArg (CEntry w p) => entry_tree w p
  | NArg (CEntries w l) => Branch (map (entry_tree w) l)
  | NArg (CHeaders _ names) => Branch (map (fun name => Leaf (canonical_name name)) names)
  | _ => Leaf (other n)
  end.
Definition resolve_text (c : who * list (str * carg)) (path : list string) : option tree :=
  option_map tree_of (resolve_reference E x (fst c) (snd c) path).
End Data.
