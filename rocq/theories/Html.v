(** The HTML report (httpolice/reports/html.py), as a tree: how Dominate writes elements down,
    with what white space and how it escapes texts and the values of attributes, is
    left out. *)
From Coq Require Import String.
From Verif Require Import Base Grammar Parse Text Actions Structure Known Tables Header Citation Links Templates Catalogue Titles Blackboard Annotated TextReport.
Open Scope nat_scope.
Open Scope list_scope.
Unset Strict Implicit.
Local Open Scope string_scope.
Local Open Scope list_scope.

Inductive html := Text (x : str) | Elem (tag : string) (attrs : list (string * str)) (kids : list html).

(** ** What is known about names and numbers *)

(** The classes whose instances are compared without regard to case
    (httpolice/structure.py:153-402). *)
Definition caseless (cls : string) : bool :=
  existsb (String.eqb cls) ["FieldName"; "TransferCoding"; "ContentCoding"; "MediaType"; "RangeUnit"; "CacheDirective"; "AuthScheme"; "HSTSDirective"; "Preference"; "ForwardedParam"].
Definition same_key (cls : string) (a b : str) : bool := if caseless cls then ci_eq a b else str_eqb a b.
(** [known.get(obj)] (httpolice/known/__init__.py:391-395), for the columns in Links.v; the object is
    given by its class and by its text, which for numbers has no leading zeros. *)
Definition known_row (cls : string) (x : str) : option (option str * option cite) :=
  match find (fun t => String.eqb (fst t) cls) link_tables with
  | Some t => option_map (fun r => (snd (fst r), snd r)) (find (fun r => same_key cls (fst (fst r)) x) (snd t))
  | None => None
  end.
(** [known.citation(obj)] (httpolice/known/__init__.py:398-399). *)
Definition known_citation (cls : string) (x : str) : option cite := match known_row cls x with Some (_, c) => c | None => None end.
(** [known.title(obj, with_citation=True)] (httpolice/known/__init__.py:402-412). *)
Definition row_title (t : option str) (c : option cite) : option str :=
  match c with
  | None => t
  | Some c =>
      match cite_title c with
      | Some (a :: u) => Some (match t with Some (b :: v) => b :: v ++ s " (" ++ (a :: u) ++ s ")" | _ => a :: u end)
      | _ => t
      end
  end.
Definition known_title_cited (cls : string) (x : str) : option str := match known_row cls x with None => None | Some (t, c) => row_title t c end.
(** [_render_known] (httpolice/reports/html.py:295-305). *)
Definition render_known (cls : string) (x : str) : list html :=
  match known_citation cls x with
  | Some c =>
      [Elem "a" (("href", cite_url c) :: match known_title_cited cls x with Some (b :: t) => [("title", b :: t)] | _ => [] end) [Text (printable x)]]
  | None => [Text (printable x)]
  end.

(** ** Data *)

(** What a reference leads to, when it has been expanded (httpolice/reports/common.py:18-47):
    text, something that is known in advance, a list, or a [Placeholder] with its name
    (httpolice/reports/html.py:66-83). *)
Inductive data := DText (x : str) | DKnown (cls : string) (x : str) | DList (l : list data) | DPlaceholder (name : str).
(** [_piece_to_html] of data (httpolice/reports/html.py:322-333, 377-382). *)
Fixpoint data_html (d : data) : list html :=
  match d with
  | DText x => [Text (printable x)]
  | DKnown cls x => render_known cls x
  | DList l => flat_map data_html l
  | DPlaceholder name => [Elem "var" [] [Text name]]
  end.

(** A [ParseError] (httpolice/parse.py:146-170): what was found is [None] when it is not known,
    and a symbol is given by its name and citation. *)
Record parse_error := ParseErr { pe_name : option str; pe_position : Z; pe_found : option str; pe_expected : list (option str * list (str * option cite)) }.
(** The citations of the symbols of the grammar: the arguments of [fill_names] and [named]
    (httpolice/parse.py:633-655) in httpolice/syntax/*.py, and those in httpolice/framing1.py. *)
Definition grammar_cites : list cite :=
  map (fun n => RFC n None None None) [2616; 3986; 4647; 5234; 5646; 5789; 6266; 6749; 6797; 6838; 7230; 7231; 7232; 7233; 7234; 7235; 7239; 7240; 7540; 7838; 8187; 8288]%N ++
  map (fun x => RFC 7230 (Some (s x)) None None) ["3"; "3.1.1"; "3.1.2"; "3.2"; "4.1"; "7"] ++
  [RFC 7240 None None (Some 4439%N);
   Document (Some (s "W3C Linked Data Platform 1.0")) (s "https://www.w3.org/TR/2015/REC-ldp-20150226/");
   Document (Some (s "WHATWG Fetch")) (s "https://fetch.spec.whatwg.org/")].
(** A piece of a paragraph about an error. *)
Inductive detail := Say (x : str) | Sym (name : str) (c : option cite).
(** [expand_parse_error] (httpolice/reports/common.py:54-73). *)
Definition expected_para (first : bool) (o : option str * list (str * option cite)) : list detail :=
  match fst o with
  | Some (c :: x) => (if first then [Say (c :: x)] else [Say (s "or "); Say (c :: x)]) ++ match snd o with [] => [] | _ => [Say (s " as part of ")] end
  | _ => []
  end ++
  match snd o with
  | [] => []
  | (n, c) :: l => Sym n c :: flat_map (fun y => [Say (s " or "); Sym (fst y) (snd y)]) l
  end.
Definition expand_parse_error (e : parse_error) : list (list detail) :=
  match pe_name e with Some (c :: x) => [[Say (c :: x)]] | _ => [] end ++
  [[Say (s "Parse error at offset " ++ show (pe_position e) ++ s ".")]] ++
  match pe_found e with
  | None => []
  | Some [] => [[Say (s "Found end of data.")]]
  | Some x => [[Say (s "Found: " ++ format_chars x)]]
  end ++
  [[Say (s "Expected:")]] ++
  match pe_expected e with [] => [] | o :: l => expected_para true o :: map (expected_para false) l end.
(** What the [error] in a context is: a parse error, another exception by its message, or a
    [Placeholder]. *)
Inductive failure := FParse (e : parse_error) | FOther (x : str) | FPlaceholder (name : str).

(** [_cite_to_html] (httpolice/reports/html.py:367-370).  Dominate raises [ValueError] when there is no
    title. *)
Definition cite_html (c : cite) : option (list html) :=
  if cite_valid c then
    match cite_title c with
    | Some t => Some [Elem "cite" [] [Elem "a" [("href", cite_url c)] [Text t]]]
    | None => None
    end
  else None.
Section AllOf.
Context {A B : Type}.
Variable f : A -> option (list B).
(** The results of all, one after another, or [None] if one of them raises. *)
Fixpoint all_of (l : list A) : option (list B) :=
  match l with
  | [] => Some []
  | a :: l' => match f a, all_of l' with Some x, Some y => Some (x ++ y) | _, _ => None end
  end.
End AllOf.
(** [_piece_to_html] of a piece of a paragraph about an error; [expand_symbol]
    (httpolice/reports/common.py:26-30). *)
Definition detail_html (d : detail) : option (list html) :=
  match d with
  | Say x => Some [Text (printable x)]
  | Sym name None => Some [Text (printable name)]
  | Sym name (Some c) => match cite_html c with Some l => Some (Text (printable name) :: Text (s " (") :: l ++ [Text (s ")")]) | None => None end
  end.
(** [_exc_to_html] (httpolice/reports/html.py:352-356), [expand_error] (httpolice/reports/common.py:50-52). *)
Definition failure_html (e : failure) : option (list html) :=
  match e with
  | FParse e => all_of (fun para => option_map (fun l => [Elem "p" [] l]) (all_of detail_html para)) (expand_parse_error e)
  | FOther x => Some [Elem "p" [] [Text (printable x)]]
  | FPlaceholder name => Some [Elem "p" [] [Elem "var" [] [Text name]]]
  end.

(** ** Notices *)

(** [u' '.join(ids)] (httpolice/reports/html.py:259-260). *)
Definition referring_to (ids : list N) : list (string * str) := [("data-ref-to", join (s " ") (map dec_str ids))].
(** [severity.name]. *)
Definition severity_name (x : severity) : string := match x with Error => "error" | Comment => "comment" | Debug => "debug" end.
(** [all_notices[id]] (httpolice/notice.py:171-183). *)
Definition template_of (id : N) : option (list elem * list block) := option_map snd (find (fun t => N.eqb (fst t) id) templates).

Section Report.
Context {Ctx : Type}.
(** [resolve_reference] (httpolice/reports/common.py:10-15): the [_reference_ids] of what the reference leads to
    (httpolice/reports/html.py:239-249), and its expansion; [None] stands for an exception. *)
Variable resolve : Ctx -> list string -> option (list N * data).
(** [_reference_ids] of [_magic_references] of something known in advance, without [ref="no"]
    (httpolice/reports/html.py:263-288). *)
Variable magic : Ctx -> string -> str -> option (list N).
(** [ctx['error']]. *)
Variable error_of : Ctx -> option failure.

(** [_piece_to_html] (httpolice/reports/html.py:322-375). *)
Fixpoint elem_html (ctx : Ctx) (e : elem) : option (list html) :=
  match e with
  | Words x => Some [Text (printable x)]
  | Templates.Known cls x refers => option_map (fun ids => [Elem "span" (referring_to ids) (render_known cls x)]) (if refers then magic ctx cls x else Some [])
  | Datum path => match resolve ctx path with Some (ids, d) => Some [Elem "span" (referring_to ids) (data_html d)] | None => None end
  | Cite c quote =>
      match cite_html c with
      | Some l =>
          match quote with
          | [] => Some l
          | _ => match all_of (elem_html ctx) quote with Some q => Some (l ++ [Text (s ": "); Elem "q" [] q]) | None => None end
          end
      | None => None
      end
  end.
Definition block_html (ctx : Ctx) (b : block) : option (list html) :=
  match b with
  | Para l => option_map (fun k => [Elem "p" [] k]) (all_of (elem_html ctx) l)
  | Exception_ => match error_of ctx with Some e => failure_html e | None => None end
  | Pointer path => match resolve ctx path with Some (ids, _) => Some [Elem "span" (referring_to ids) [Text []]] | None => None end
  end.
(** [_notice_to_html] (httpolice/reports/html.py:308-319). *)
Definition notice_html (anchor : bool) (c : N * Ctx) : option (list html) :=
  match severity_of (fst c), template_of (fst c) with
  | Some sv, Some (title, explanation) =>
      match all_of (elem_html (snd c)) title, all_of (block_html (snd c)) explanation with
      | Some t, Some b =>
          Some [Elem "div" (("class", s "notice " ++ s (severity_name sv)) :: if anchor then [("id", dec_str (fst c))] else [])
                  (Elem "h3" [] [Elem "abbr" [("class", s "severity"); ("title", s (severity_name sv))] [Text (severity_short sv)];
                                 Elem "span" [("class", s "ident")] [Text (dec_str (fst c))];
                                 Elem "span" [] t] :: b)]
      | _, _ => None
      end
  | _, _ => None
  end.
(** [_render_complaints] (httpolice/reports/html.py:216-220). *)
Definition render_complaints (l : list (N * Ctx)) : option (list html) :=
  match l with
  | [] => Some []
  | _ => option_map (fun k => [Elem "div" [("class", s "complaints")] k]) (all_of (notice_html false) l)
  end.

(** ** Messages *)

(** The parts of a message that can be referred to. *)
Inductive part := PMethod | PTarget | PVersion | PStatus | PBody | PEntry (p : place).
(** An entry of the header or the trailer, with its annotated value. *)
Definition line : Type := place * str * list (chunk val).
Inductive shown_body := Unknown | Unavailable_ | Shown (x : str).
Inductive start := StartRequest (method target : str) | StartResponse (status : Z) (reason : option str).
Record message := Msg_ { g_remark : option str; g_version : option str; g_start : start; g_headers : list line; g_body : shown_body; g_transforms : list str; g_trailers : list line }.
(** What the report needs of a message; [None] when [displayable_body] raises. *)
Variable message_of : nat -> option message.
(** [_anonymize_id(id(obj))] (httpolice/reports/html.py:231-236) of a part of a message. *)
Variable id_of : nat -> part -> N.

(** [_for_object] (httpolice/reports/html.py:252-256). *)
Definition for_object (m : nat) (p : part) : list (string * str) := [("data-ref-id", dec_str (id_of m p))].
(** [_render_annotated] (httpolice/reports/html.py:207-213). *)
Definition class_name (cls : str) : string := match find (fun t => str_eqb (s (fst t)) cls) link_tables with Some t => fst t | None => "" end.
Definition chunk_html (c : chunk val) : list html :=
  match c with
  | Bytes b => [Text (printable b)]
  | Obj v => match v with VObj cls _ => render_known (class_name cls) (known_str v) | _ => [Text (printable (known_str v))] end
  end.
(** [_render_header_entries] (httpolice/reports/html.py:198-204). *)
Definition line_html (m : nat) (l : line) : html :=
  match l with
  | (p, name, pieces) =>
      Elem "pre" (for_object m (PEntry p) ++ [("class", s "header-entry")])
        [Elem "code" [] (render_known "FieldName" name ++ Text (s ": ") :: flat_map chunk_html pieces)]
  end.
(** [_render_message] (httpolice/reports/html.py:177-195). *)
Definition body_html (m : nat) (b : shown_body) (transforms : list str) : list html :=
  match b with
  | Shown [] => []
  | _ =>
      [Elem "div" (for_object m PBody ++ [("class", s "body-display")])
         (match b with
          | Unknown => [Elem "h3" [] [Text (s "Body is unknown")]]
          | Unavailable_ => [Elem "h3" [] [Text (s "Body is present, but not available for inspection")]]
          | Shown x =>
              match transforms with [] => [] | _ => [Elem "h3" [] [Text (s "Body after " ++ nicely_join transforms)]] end ++ [Elem "pre" [] [Text x]]
          end)]
  end.
Definition message_html (m : nat) (g : message) : list html :=
  map (line_html m) (g_headers g) ++
  body_html m (g_body g) (g_transforms g) ++
  match g_trailers g with
  | [] => []
  | _ => [Elem "div" [("class", s "trailer")] (Elem "h3" [] [Text (s "Headers from the trailer part")] :: map (line_html m) (g_trailers g))]
  end.
(** [_render_request], [_render_response] (httpolice/reports/html.py:138-174). *)
Definition remark_html (g : message) : list html :=
  match g_remark g with Some (c :: x) => [Elem "p" [("class", s "message-remark")] [Text (printable (c :: x))]] | _ => [] end.
Definition version_html (m : nat) (g : message) : list html :=
  match g_version g with Some (c :: x) => [Elem "span" (for_object m PVersion) [Text (printable (c :: x))]] | _ => [] end.
Definition start_html (m : nat) (g : message) : list html :=
  match g_start g with
  | StartRequest method target =>
      [Elem "span" (for_object m PMethod) (render_known "Method" method); Elem "span" (for_object m PTarget) [Text (printable target)]] ++ version_html m g
  | StartResponse status reason =>
      version_html m g ++
      [Elem "span" (for_object m PStatus ++ [("class", s "StatusCode")])
         (render_known "StatusCode" (show status) ++ [Text (s " " ++ printable (reason_phrase status reason))])]
  end.
Variable visible : obj -> list (N * Ctx).
Definition section_html (m : nat) : option (list html) :=
  match message_of m, render_complaints (visible (Msg m)) with
  | Some g, Some k =>
      Some [Elem "section" [] (Elem "div" [("class", s "message-display")] (remark_html g ++ Elem "h2" [] [Elem "code" [] (start_html m g)] :: message_html m g) :: k)]
  | _, _ => None
  end.

(** ** The report *)
Variable request_of : nat -> option nat.
Variable responses_of : nat -> list nat.
Definition rule_after (x : option (list html)) : option (list html) := option_map (fun l => l ++ [Elem "hr" [] []]) x.
(** The body of the loop in [_generate_exchange_divs] (httpolice/reports/html.py:117-135). *)
Definition exchange_kids (e : nat) : option (list html) :=
  match match request_of e with Some q => rule_after (section_html q) | None => Some [] end,
        all_of (fun p => rule_after (section_html p)) (responses_of e),
        match visible (Exch e) with [] => Some [] | l => rule_after (render_complaints l) end with
  | Some a, Some b, Some c => Some (a ++ b ++ c)
  | _, _, _ => None
  end.
(** The elements that [html_report] writes for the exchanges (httpolice/reports/html.py:26-63), and whether
    it ends normally. *)
Fixpoint html_report (es : list nat) : list html * bool :=
  match es with
  | [] => ([], true)
  | e :: es' =>
      match exchange_kids e with
      | Some k =>
          let (out, done) := html_report es' in
          (match k with [] => out | _ => Elem "div" [("class", s "exchange")] k :: out end, done)
      | None => ([], false)
      end
  end.
End Report.

(** [list_notices] (httpolice/reports/html.py:86-104): the elements for the notices, which are
    sorted by their ids.  Each reference leads to a [Placeholder] with the name of its
    last part. *)
Fixpoint insert_id (n : N) (l : list N) : list N := match l with [] => [n] | m :: l' => if N.leb n m then n :: l else m :: insert_id n l' end.
Definition sorted_ids : list N := fold_right insert_id [] (map c_id catalogue).
(** The ids of placeholders are those of new objects. *)
Definition list_notices (fresh : list string -> N) : option (list html) :=
  all_of (fun id => notice_html (fun _ path => Some ([fresh path], DPlaceholder (s (last path "")))) (fun _ _ _ => Some []) (fun _ => Some (FPlaceholder (s "error"))) true (id, tt)) sorted_ids.
