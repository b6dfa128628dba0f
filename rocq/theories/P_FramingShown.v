(** C112, continued: how an error in the framing of a stream is shown. *)
From Coq Require Import ZifyBool ZifyNat ZifyN String.
From Verif Require Import Base Earley EarleySpec EarleyChart EarleyItems EarleySearch EarleyTerm EarleyTop EarleyMain Parse P_Earley Grammar GrammarWF Syntax Reading P_Grammar GrammarSem Known Header Text P_Util Structure Actions Citation Templates TextReport Reports P_Reports Html P_Html P_Display Details P_Details.
From Verif Require Stream FramingParts.
Open Scope nat_scope.
Open Scope list_scope.
Unset Strict Implicit.
Local Open Scope string_scope.
Local Open Scope list_scope.

(** ** Model *)

(** The symbols (httpolice/framing1.py:18-24). *)
Definition part_symbol (p : FramingParts.part) : str * option cite :=
  match p with
  | FramingParts.HttpMessage => (s "HTTP-message", Some (RFC 7230 (Some (s "3")) None None))
  | FramingParts.RequestLine => (s "request-line", Some (RFC 7230 (Some (s "3.1.1")) None None))
  | FramingParts.StatusLine => (s "status-line", Some (RFC 7230 (Some (s "3.1.2")) None None))
  | FramingParts.HeaderField => (s "header-field", Some (RFC 7230 (Some (s "3.2")) None None))
  | FramingParts.ChunkedBody => (s "chunked-body", Some (RFC 7230 (Some (s "4.1")) None None))
  | FramingParts.Chunk => (s "chunk", Some (RFC 7230 (Some (s "4.1")) None None))
  | FramingParts.ChunkSize => (s "chunk-size", Some (RFC 7230 (Some (s "4.1")) None None))
  end.
(** What was expected (httpolice/stream.py:64, 74-78, 94). *)
Definition expectation_text (x : Stream.expectation) : option str :=
  match x with
  | Stream.ExpNothing => None
  | Stream.ExpBytes n => Some (s "at least " ++ show n ++ s " bytes")
  | Stream.ExpLineLimit => Some (s "no more than " ++ show (Z.of_N Stream.max_line_length) ++ s " bytes before end of line")
  | Stream.ExpLine => Some (s "data terminated by end of line")
  | Stream.ExpLineEnd => Some (s "end of line")
  end.
(** [Stream.error] (httpolice/stream.py:39-42), when something is being parsed; [name] is the name of the
    stream. *)
Definition framing_error (name : option str) (e : Stream.perror) (p : FramingParts.part) : parse_error :=
  ParseErr name (Z.of_N (Stream.pe_pos e)) None [(expectation_text (Stream.pe_expected e), [part_symbol p])].

(** ** Specification *)

(** A part of a message, with the section of RFC 7230 that defines it. *)
Definition of_rfc7230 (section : string) : str := s " (RFC" ++ [160%N] ++ s "7230 " ++ [167%N; 160%N] ++ s section ++ s ")".
Definition part_text (p : FramingParts.part) : str :=
  match p with
  | FramingParts.HttpMessage => s "HTTP-message" ++ of_rfc7230 "3"
  | FramingParts.RequestLine => s "request-line" ++ of_rfc7230 "3.1.1"
  | FramingParts.StatusLine => s "status-line" ++ of_rfc7230 "3.1.2"
  | FramingParts.HeaderField => s "header-field" ++ of_rfc7230 "3.2"
  | FramingParts.ChunkedBody => s "chunked-body" ++ of_rfc7230 "4.1"
  | FramingParts.Chunk => s "chunk" ++ of_rfc7230 "4.1"
  | FramingParts.ChunkSize => s "chunk-size" ++ of_rfc7230 "4.1"
  end.
Definition wanted (x : Stream.expectation) (part : str) : str :=
  match x with
  | Stream.ExpNothing => part
  | Stream.ExpBytes n => s "at least " ++ show n ++ s " bytes as part of " ++ part
  | Stream.ExpLineLimit => s "no more than 16384 bytes before end of line as part of " ++ part
  | Stream.ExpLine => s "data terminated by end of line as part of " ++ part
  | Stream.ExpLineEnd => s "end of line as part of " ++ part
  end.

(** ** Proofs *)

Lemma part_shown p : symbol_text (part_symbol p) = part_text p.
Proof. destruct p; vm_compute; reflexivity. Qed.
Lemma part_citable p : citable (part_symbol p).
Proof. intros c H. destruct p; injection H as <-; split; [reflexivity|discriminate|reflexivity|discriminate|reflexivity|discriminate|reflexivity|discriminate|reflexivity|discriminate|reflexivity|discriminate|reflexivity|discriminate]. Qed.
Lemma wanted_text x p : flat_map detail_text (expected_para true (expectation_text x, [part_symbol p])) = wanted x (part_text p).
Proof.
  rewrite <- part_shown. destruct x as [|n| | |]; cbn [expectation_text].
  - unfold expected_para. cbn [fst snd app]. destruct (part_symbol p) as [a c]. cbn [flat_map detail_text wanted]. now rewrite app_nil_r.
  - rewrite para_text; [|intro H; discriminate H|apply clean_app; [apply clean_by; reflexivity|apply clean_app; [apply P_Reports.show_clean|apply clean_by; reflexivity]]].
    cbn [app map]. unfold line. cbn [fst snd join wanted]. rewrite <- !app_assoc. reflexivity.
  - rewrite para_text; [|intro H; discriminate H|apply clean_by; reflexivity]. reflexivity.
  - rewrite para_text; [|intro H; discriminate H|apply clean_by; reflexivity]. reflexivity.
  - rewrite para_text; [|intro H; discriminate H|apply clean_by; reflexivity]. reflexivity.
Qed.
(** C112.  An error in the framing is shown in paragraphs: the name of the stream (if it has one), the
    offset, and what was expected there as which part of a message. *)
Theorem C112_shown : forall name e p, exists l,
  failure_html (FParse (framing_error name e p)) = Some l /\
  Forall (fun h => exists kids, h = Elem "p" [] kids) l /\
  map text_of l =
    match name with None | Some [] => [] | Some x => [printable x] end ++
    [s "Parse error at offset " ++ show (Z.of_N (Stream.pe_pos e)) ++ s "."; s "Expected:"; wanted (Stream.pe_expected e) (part_text p)].
Proof.
  intros name e p. assert (Y : forall x, Forall detail_fine [Say x]) by (intro x; constructor; [exact Logic.I|constructor]).
  destruct (@failure_shown (framing_error name e p)) as [l (L & K & T)].
  - unfold expand_parse_error, framing_error. cbn [Html.pe_name Html.pe_position Html.pe_found Html.pe_expected map].
    apply Forall_app. split; [destruct name as [[|c x]|]; repeat constructor|]. apply Forall_app. split; [constructor; [apply Y|constructor]|]. apply Forall_app. split; [constructor|].
    apply Forall_app. split; [constructor; [apply Y|constructor]|]. constructor; [|constructor]. unfold expected_para. cbn [fst snd].
    assert (F : Forall detail_fine (let (n, c) := part_symbol p in [Sym n c])) by (pose proof (@part_citable p) as C; destruct (part_symbol p) as [a c]; constructor; [exact C|constructor]).
    apply Forall_app. split; [|destruct (part_symbol p) as [a c]; exact F].
    destruct (expectation_text (Stream.pe_expected e)) as [[|c x]|]; constructor; [exact Logic.I|repeat constructor].
  - exists l. split; [exact L|]. split; [exact K|]. rewrite T. unfold expand_parse_error, framing_error. cbn [Html.pe_name Html.pe_position Html.pe_found Html.pe_expected map].
    rewrite !map_app. f_equal.
    + destruct name as [[|c x]|]; [reflexivity| |reflexivity]. cbn [map flat_map detail_text]. now rewrite app_nil_r.
    + cbn [map app]. rewrite wanted_text. cbn [flat_map detail_text]. rewrite !app_nil_r.
      rewrite (@printable_same (s "Parse error at offset " ++ show (Z.of_N (Stream.pe_pos e)) ++ s ".")); [reflexivity|].
      apply clean_app; [apply clean_by; reflexivity|]. apply clean_app; [apply P_Reports.show_clean|apply clean_by; reflexivity].
Qed.
Print Assumptions C112_shown.
Example C112_shown_example :
  option_map (map text_of) (failure_html (FParse (framing_error (Some (s "in")) (Stream.mkPerror 25 Stream.ExpLine) FramingParts.HttpMessage))) =
  Some [s "in"; s "Parse error at offset 25."; s "Expected:"; s "data terminated by end of line as part of HTTP-message" ++ of_rfc7230 "3"].
Proof. vm_compute. reflexivity. Qed.
