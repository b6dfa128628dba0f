(** C111: every notice that the framing of streams reports is in the catalogue, and
    everything that its text refers to can be found. *)
From Coq Require Import ZifyBool ZifyNat ZifyN String.
From Verif Require Import Base Earley Grammar Syntax Actions Nested P_Types Text Structure Known Tables Header P_Header Values Notices Catalogue ChecksBase ChecksLogic ChecksViews ChecksMessage ChecksRequest ChecksResponse ChecksSays ChecksTop ChecksExchange ChecksExample P_Exchange Reports P_Catalogue Joined P_Joined.
From Verif Require Stream Framing P_FramingRuns FramingIds.
Open Scope nat_scope.
Open Scope list_scope.
Unset Strict Implicit.
Local Open Scope string_scope.
Local Open Scope list_scope.

(** ** Model *)

(** The [place] of a complaint (httpolice/framing1.py:116, 130, 199, 314): a text,
    or the view of Content-Length. *)
Definition place_arg (w : who) (p : Framing.place) : carg :=
  match p with
  | Framing.RequestHeading => CVal (VStr (s "request heading"))
  | Framing.ResponseHeading => CVal (VStr (s "response heading"))
  | Framing.ChunkedFraming => CVal (VStr (s "chunked framing"))
  | Framing.ContentLengthField => CHeader w (s "Content-Length")
  end.
(** The keywords of the complaints (httpolice/framing1.py:116, 130-137, 149, 199,
    209, 214, 267-283, 326-332): [place]; [error]; [place], [size] and [max_size];
    [coding], and for 1027 also [error]. *)
Definition note_context (w : who) (n : Framing.note) : list (str * carg) :=
  match Framing.n_ctx n with
  | Framing.CtxNone => []
  | Framing.CtxPlace p => [(s "place", place_arg w p)]
  | Framing.CtxError _ => [(s "error", CError)]
  | Framing.CtxSize p size => [(s "place", place_arg w p); (s "size", CVal (VInt size)); (s "max_size", CVal (VInt Framing.MAX_BODY_SIZE))]
  | Framing.CtxCoding c => (s "coding", CVal (VObj (s "TransferCoding") [VStr c])) :: if N.eqb (Framing.n_id n) 1027 then [(s "error", CError)] else []
  end.
(** The attributes of [ParseError] (httpolice/parse.py:164-169). *)
Definition parse_error_attributes : list string := ["name"; "position"; "expected"; "found"].
(** The keywords of the complaints in complaint boxes (httpolice/framing1.py:74, 80, 90, 97, 176). *)
Definition box_keywords (b : Framing.box) : list string :=
  match b with Framing.BoxError _ _ => ["error"] | Framing.BoxOffset _ _ => ["stream"; "offset"] | Framing.BoxPlain _ => ["stream"] end.
Definition box_id (b : Framing.box) : N :=
  match b with Framing.BoxError id _ => id | Framing.BoxOffset id _ => id | Framing.BoxPlain id => id end.

(** ** Specification *)

(** A notice that the framing put on a message of an exchange. *)
Definition noted_on (y : Framing.exchange) (w : who) (n : Framing.note) : Prop :=
  match y, w with
  | Framing.Exchange (Some q) _, Req => In n (Framing.notes (Framing.rq_msg q))
  | Framing.Exchange _ ps, Resp k => exists p, nth_error ps k = Some p /\ In n (Framing.notes (Framing.rs_msg p))
  | _, _ => False
  end.
(** A reference in the text of such a notice leads somewhere: to an attribute of the
    parse error, or to what [resolve_reference] finds. *)
Definition leads (E : env) (x : exchange) (w : who) (n : Framing.note) (ref : list string) : Prop :=
  (exists a e, ref = ["error"; a] /\ In a parse_error_attributes /\ Framing.n_ctx n = Framing.CtxError e) \/
  (exists found, resolve_reference E x w (note_context w n) ref = Some found).
Definition note_shown (E : env) (x : exchange) (w : who) (n : Framing.note) : Prop :=
  exists c, In c catalogue /\ c_id c = Framing.n_id n /\ (forall ref, In ref (c_refs c) -> leads E x w n ref) /\
  (c_exception c = true -> exists e, In (s "error", e) (note_context w n)).
(** The notice of a complaint box can be shown: it refers to its keywords, and to the name of the stream. *)
Definition box_shown (b : Framing.box) : Prop :=
  exists c, In c catalogue /\ c_id c = box_id b /\
  (forall ref, In ref (c_refs c) -> (exists a, ref = [a] /\ In a (box_keywords b)) \/ ref = ["stream"; "name"] /\ In "stream" (box_keywords b)) /\
  (c_exception c = true -> In "error" (box_keywords b)).

(** ** Proofs *)

Definition keys_of (i : N) (f : FramingIds.form) : list string :=
  match f with
  | FramingIds.Bare => []
  | FramingIds.Placed => ["place"]
  | FramingIds.Faulty => ["error"]
  | FramingIds.Sized => ["place"; "size"; "max_size"]
  | FramingIds.Coded => "coding" :: if N.eqb i 1027 then ["error"] else []
  end.
Lemma keys_there w n : map fst (note_context w n) = map s (keys_of (Framing.n_id n) (FramingIds.form_of (Framing.n_ctx n))).
Proof. unfold note_context. destruct (Framing.n_ctx n); cbn [FramingIds.form_of keys_of map fst]; try reflexivity. destruct (N.eqb _ _); reflexivity. Qed.
Definition error_ref (f : FramingIds.form) (ref : list string) : bool :=
  match ref, f with [e; a], FramingIds.Faulty => String.eqb e "error" && existsb (String.eqb a) parse_error_attributes | _, _ => false end.
Definition entry_fits (k : kind) (e : N * FramingIds.form) : bool :=
  existsb (fun c => if N.eqb (c_id c) (fst e) then forallb (fun ref => error_ref (snd e) ref || can_follow k (keys_of (fst e) (snd e)) ref) (c_refs c) &&
    (negb (c_exception c) || existsb (String.eqb "error") (keys_of (fst e) (snd e))) else false) catalogue.
Lemma requests_fit : forallb (entry_fits IsRequest) (FramingIds.allowed false) = true.
Proof. vm_compute. reflexivity. Qed.
Lemma responses_fit : forallb (entry_fits (IsResponse false)) (FramingIds.allowed true) = true.
Proof. vm_compute. reflexivity. Qed.
Lemma fitting E x w k n : parses_http (e_read E) -> kind_ok x w k -> entry_fits k (Framing.n_id n, FramingIds.form_of (Framing.n_ctx n)) = true -> note_shown E x w n.
Proof.
  intros http K H. unfold entry_fits in H. apply existsb_exists in H. destruct H as [c [I H]]. cbn [fst snd] in H.
  destruct (N.eqb_spec (c_id c) (Framing.n_id n)) as [Q|]; [|discriminate H]. apply andb_true_iff in H. destruct H as [H1 H2]. exists c. split; [exact I|]. split; [exact Q|].
  assert (KT : forall key, In key (keys_of (Framing.n_id n) (FramingIds.form_of (Framing.n_ctx n))) -> In (s key) (map fst (note_context w n))) by (intros key J; rewrite keys_there; now apply in_map).
  split.
  - intros ref R. rewrite forallb_forall in H1. specialize (H1 ref R). apply orb_true_iff in H1. destruct H1 as [H1|H1].
    + left. unfold error_ref in H1. destruct ref as [|e [|a [|]]]; try discriminate H1. destruct (Framing.n_ctx n) as [|p|err|p z|cc] eqn:F; try discriminate H1. cbn [FramingIds.form_of] in H1.
      apply andb_true_iff in H1. destruct H1 as [H0 H1]. apply String.eqb_eq in H0. apply existsb_exists in H1. destruct H1 as [a' [J H1]]. apply String.eqb_eq in H1. subst. exists a', err. auto.
    + right. eapply can_follow_ok; [exact http|exact K|exact H1|exact KT].
  - intro X. rewrite X in H2. cbn [negb orb] in H2. apply existsb_exists in H2. destruct H2 as [key [J H2]]. apply String.eqb_eq in H2. subst key.
    specialize (KT _ J). apply in_map_iff in KT. destruct KT as [[key e] [K1 K2]]. cbn [fst] in K1. subst key. eauto.
Qed.

(** C111.  Whatever streams are framed, each notice that the framing puts on a message
    is in the catalogue and can be shown with all that its text refers to. *)
Theorem C111_notes : forall E scheme i o y w n, parses_http (e_read E) ->
  In y (Framing.yielded (P_FramingRuns.parse_bytes (framing_env E) i o)) -> noted_on y w n ->
  part_of (seen_exchange scheme y) w /\ note_shown E (seen_exchange scheme y) w n.
Proof.
  intros E scheme i o y w n http Y H. pose proof (FramingIds.streams_noted (framing_env E) (@FramingIds.new_calm i) (@FramingIds.new_calm o)) as F.
  rewrite Forall_forall in F. specialize (F y Y). destruct y as [q ps|b]; [|destruct H]. destruct F as [F1 F2]. destruct w as [|k].
  - destruct q as [q|]; [|destruct H]. cbn [noted_on] in H. specialize (F1 q eq_refl). unfold FramingIds.noted_as in F1. rewrite Forall_forall in F1. specialize (F1 n H).
    assert (K : kind_ok (seen_exchange scheme (Framing.Exchange (Some q) ps)) Req IsRequest) by (eexists; reflexivity). split; [exact (kind_part K)|].
    apply (fitting http K). exact (proj1 (forallb_forall _ _) requests_fit _ F1).
  - assert (H' : exists p, nth_error ps k = Some p /\ In n (Framing.notes (Framing.rs_msg p))) by (destruct q; exact H). clear H. destruct H' as [p [P H]].
    rewrite Forall_forall in F2. specialize (F2 p (nth_error_In _ _ P)). unfold FramingIds.noted_as in F2. rewrite Forall_forall in F2. specialize (F2 n H).
    assert (K : kind_ok (seen_exchange scheme (Framing.Exchange q ps)) (Resp k) (IsResponse false)).
    { split; [|discriminate]. exists (seen_response p). unfold response_at. cbn [seen_exchange x_responses]. now rewrite nth_error_map, P. }
    split; [exact (kind_part K)|]. apply (fitting http K). exact (proj1 (forallb_forall _ _) responses_fit _ F2).
Qed.
Print Assumptions C111_notes.

Definition box_fits (i : N) (keys : list string) : bool :=
  existsb (fun c => N.eqb (c_id c) i && forallb (fun ref => match ref with [a] => existsb (String.eqb a) keys | [a; b] => String.eqb a "stream" && String.eqb b "name" && existsb (String.eqb a) keys | _ => false end) (c_refs c) &&
    (negb (c_exception c) || existsb (String.eqb "error") keys)) catalogue.
Lemma among_keys a keys : existsb (String.eqb a) keys = true -> In a keys.
Proof. intro H. apply existsb_exists in H. destruct H as [b [I H]]. apply String.eqb_eq in H. now subst. Qed.
Lemma box_fitting b : box_fits (box_id b) (box_keywords b) = true -> box_shown b.
Proof.
  intro H. apply existsb_exists in H. destruct H as [c [I H]]. apply andb_true_iff in H. destruct H as [H H3]. apply andb_true_iff in H. destruct H as [H1 H2]. apply N.eqb_eq in H1.
  exists c. split; [exact I|]. split; [exact H1|]. split.
  - intros ref R. rewrite forallb_forall in H2. specialize (H2 ref R). destruct ref as [|a [|a' [|]]]; try discriminate H2.
    + left. exists a. split; [reflexivity|now apply among_keys].
    + right. apply andb_true_iff in H2. destruct H2 as [H2 H4]. apply andb_true_iff in H2. destruct H2 as [H2 H5]. apply String.eqb_eq in H2. apply String.eqb_eq in H5. subst. split; [reflexivity|now apply among_keys].
  - intro X. rewrite X in H3. cbn [negb orb] in H3. now apply among_keys.
Qed.
(** C111.  So can the notice of each complaint box. *)
Theorem C111_boxes : forall E i o b, In (Framing.ComplaintBox b) (Framing.yielded (P_FramingRuns.parse_bytes E i o)) -> box_shown b.
Proof.
  intros E i o b Y. pose proof (FramingIds.streams_noted E (@FramingIds.new_calm i) (@FramingIds.new_calm o)) as F. rewrite Forall_forall in F. specialize (F _ Y). cbn [FramingIds.noted_exchange] in F.
  apply box_fitting. destruct b as [id e|id a|id]; cbn [FramingIds.boxed box_id box_keywords] in *.
  - destruct F as [-> | ->]; vm_compute; reflexivity.
  - destruct F as [-> | ->]; vm_compute; reflexivity.
  - rewrite F. vm_compute. reflexivity.
Qed.
Print Assumptions C111_boxes.

(** *** An example: a body that is shorter than its Content-Length, then nothing; and
    a second stream with a heading that cannot be read. *)
Definition short_in : str := P_FramingRuns.crlf "POST /a HTTP/1.1" ++ P_FramingRuns.crlf "Content-Length: 7" ++ P_FramingRuns.crlf "" ++ s "abc".
Definition short_out : str := P_FramingRuns.crlf "what".
Definition short_run := Framing.yielded (P_FramingRuns.parse_bytes (framing_env small_env) (Some short_in) (Some short_out)).
Definition short_error : Stream.perror := Stream.mkPerror 39 (Stream.ExpBytes 7).
Definition short_request : Framing.request :=
  Framing.mkRequest (s "POST") (s "/a") (s "HTTP/1.1")
    (Framing.mkMessage [(s "Content-Length", s "7")] [] (Framing.Unavail None) 0 [Framing.mkNote 1004 (Framing.CtxError short_error)]).
Lemma short_yields : short_run = [Framing.Exchange (Some short_request) []; Framing.ComplaintBox (Framing.BoxError 1009 (Stream.mkPerror 0 Stream.ExpNothing))].
Proof. vm_compute. reflexivity. Qed.
Example C111_example : parses_http (e_read small_env) /\
  In (Framing.Exchange (Some short_request) []) short_run /\
  noted_on (Framing.Exchange (Some short_request) []) Req (Framing.mkNote 1004 (Framing.CtxError short_error)) /\
  In (Framing.ComplaintBox (Framing.BoxError 1009 (Stream.mkPerror 0 Stream.ExpNothing))) short_run.
Proof. split; [exact small_parses|]. rewrite short_yields. split; [now left|]. split; [now left|right; now left]. Qed.
