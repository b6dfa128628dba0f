(** C76: what the HTML report shows of messages. *)
From Coq Require Import ZifyBool ZifyNat ZifyN String.
From Verif Require Import Base Earley Grammar Parse Text P_Util Actions Structure Known Tables Header HeaderProofs P_Header Values Notices Citation Links Templates Catalogue Titles Blackboard
  ChecksBase ChecksMessage ChecksRequest ChecksResponse ChecksExample P_Exchange Reports P_Catalogue P_Bodies Annotated Verbatim P_Annotated TextReport P_Reports SafeMessage P_Safe P_Looks Html HtmlData P_Html P_HtmlData.
Open Scope nat_scope.
Open Scope list_scope.
Unset Strict Implicit.
Local Open Scope string_scope.
Local Open Scope list_scope.

(** ** Specification *)

(** The children that are of a kind of elements. *)
Definition below (tag : string) (h : html) : list html := filter (fun k => match k with Elem t _ _ => String.eqb t tag | Text _ => false end) (kids_of h).
(** The number of the object that an element stands for. *)
Definition stands (id : N) (h : html) : Prop := match h with Elem _ attrs _ => In ("data-ref-id", dec_str id) attrs | Text _ => False end.
(** The elements in the first line of a message. *)
Definition start_line (sec : html) : list html := flat_map (below "span") (flat_map (below "code") (flat_map (below "h2") (below "div" sec))).
(** An element for a part of a message, with its text. *)
Definition showing (id : N) (x : str) (h : html) : Prop := stands id h /\ text_of h = x.
(** The entries of a message with their places: headers, then trailers. *)
Definition entries_of (m : msg) : list (place * Header.entry) :=
  map (fun ie => ((false, fst ie), snd ie)) (number 0 (header_entries (m_entries m))) ++ map (fun ie => ((true, fst ie), snd ie)) (number 0 (trailer_entries (m_entries m))).
(** A header is shown as its name, a colon, and its value; characters that cannot be shown are replaced,
    and zeros before a warn code left out. *)
Definition header_line (name value line : str) : Prop := exists v, line = printable name ++ s ": " ++ v /\ shown_as (lower name = s "warning") value v.
Definition version_of (m : msg) : list str := match m_version m with Some (c :: x) => [printable (c :: x)] | _ => [] end.
(** The text in each child. *)
Definition parts_of (h : html) : list str := map text_of (kids_of h).

Section Spec.
Variable E : env.
Variable x : exchange.
Variable id_of : thing -> N.
(** The first line: method, target and version, or version, status and reason. *)
Definition shows_start (w : who) (spans : list html) : Prop :=
  match w with
  | Req => exists q, x_request x = Some q /\
      Forall2 (fun pt h => showing (id_of (TPart w (fst pt))) (snd pt) h)
        ([(PMethod, printable (q_method q)); (PTarget, printable (q_target q))] ++ map (pair PVersion) (version_of (q_msg q))) spans
  | Resp i => exists p, nth_error (x_responses x) i = Some p /\
      Forall2 (fun pt h => showing (id_of (TPart w (fst pt))) (snd pt) h)
        (map (pair PVersion) (version_of (p_msg p)) ++ [(PStatus, show (p_status p) ++ s " " ++ printable (reason_phrase (p_status p) (p_reason p)))]) spans
  end.
(** The body: nothing if it is empty, else a remark that it is not known, or the text
    that [displayable_body] gives, after a remark on how it was made if it is not as it was sent. *)
Definition shows_body (w : who) (j : subject) (boxes : list html) : Prop :=
  exists v steps, snd (displayable_body j E) = Ok (v, steps) /\
    ((v = VStr [] /\ boxes = []) \/
     exists h, boxes = [h] /\ stands (id_of (TPart w PBody)) h /\
       match v with
       | VNone => parts_of h = [s "Body is unknown"]
       | VStr t => t <> [] /\ parts_of h = match steps with [] => [] | _ => [s "Body after " ++ nicely_join steps] end ++ [t]
       | _ => parts_of h = [s "Body is present, but not available for inspection"]
       end).
(** A section shows a message. *)
Definition shows_message (w : who) (sec : html) : Prop :=
  exists j, subject_at x w = Some j /\
    shows_start w (start_line sec) /\
    Forall2 (fun pe h => stands (id_of (TPart w (PEntry (fst pe)))) h /\ header_line (e_name (snd pe)) (e_value (snd pe)) (text_of h)) (entries_of (j_msg j)) (found "header-entry" sec) /\
    shows_body w j (found "body-display" sec).
End Spec.
(** The messages of an exchange. *)
Definition whos (x : exchange) : list who := match x_request x with Some _ => [Req] | None => [] end ++ map Resp (List.seq 0 (List.length (x_responses x))).
(** The elements for exchanges: none for one that has no messages and no notices. *)
Inductive display (P : nat -> who -> html -> Prop) (exchange_at : nat -> exchange) (quiet : nat -> Prop) : list nat -> list html -> Prop :=
| display_none : display P exchange_at quiet [] []
| display_skip e es hs : whos (exchange_at e) = [] -> quiet e -> display P exchange_at quiet es hs -> display P exchange_at quiet (e :: es) hs
| display_box e es h hs : Forall2 (P e) (whos (exchange_at e)) (filter is_section (kids_of h)) -> display P exchange_at quiet es hs -> display P exchange_at quiet (e :: es) (h :: hs).

(** ** Proofs *)

(** *** Elements of a class *)
Section Absent.
Variable k : string.
Hypothesis other : forallb (fun c => negb (str_eqb (s k) (s c))) ["notice"; "error"; "comment"; "debug"; "severity"; "ident"; "complaints"; "message-remark"; "message-display"; "StatusCode"; "trailer"] = true.
Definition absent (h : html) : Prop := found k h = [].
Lemma absent_all l : (forall h, In h l -> absent h) -> flat_map (found k) l = [].
Proof. induction l as [|h l IH]; intro H; cbn [flat_map]; [reflexivity|]. rewrite (H h (or_introl eq_refl)). apply IH. intros; apply H; now right. Qed.
Lemma absent_elem tag attrs kids : existsb (str_eqb (s k)) (classes attrs) = false -> (forall h, In h kids -> absent h) -> absent (Elem tag attrs kids).
Proof. intros A K. unfold absent. rewrite found_elem, A. now apply absent_all. Qed.
Lemma absent_classless l : forallb classless l = true -> forall h, In h l -> absent h.
Proof. intros C h I. rewrite forallb_forall in C. apply classless_found, C, I. Qed.
Lemma not_class c : In c ["notice"; "error"; "comment"; "debug"; "severity"; "ident"; "complaints"; "message-remark"; "message-display"; "StatusCode"; "trailer"] -> str_eqb (s k) (s c) = false.
Proof. intro I. pose proof (proj1 (forallb_forall _ _) other c I) as H. now apply negb_true_iff in H. Qed.
Section Report.
Context {Ctx : Type}.
Variable resolve : Ctx -> list string -> option (list N * data).
Variable magic : Ctx -> string -> str -> option (list N).
Variable error_of : Ctx -> option failure.
Lemma notice_absent anchor c l : notice_html resolve magic error_of anchor c = Some l -> forall h, In h l -> absent h.
Proof.
  unfold notice_html. destruct (severity_of (fst c)) as [sv|]; [|discriminate]. destruct (template_of (fst c)) as [[title explanation]|]; [|discriminate].
  destruct (all_of (elem_html resolve magic (snd c)) title) as [t|] eqn:T; [|discriminate]. destruct (all_of (block_html resolve magic error_of (snd c)) explanation) as [b|] eqn:B; [|discriminate]. intro H.
  match type of H with Some ?a = _ => assert (l = a) by congruence end. subst l. clear H. intros h [<-|[]].
  pose proof (all_of_forall (elem_classless (resolve := resolve) (magic := magic) (ctx := snd c)) T) as CT.
  pose proof (all_of_forall (block_classless (resolve := resolve) (magic := magic) (error_of := error_of) (ctx := snd c)) B) as CB.
  assert (An : forall v, classes (("class", v) :: (if anchor then [("id", dec_str (fst c))] else [])) = words_from [] v) by (intro v; rewrite classes_cons; destruct anchor; apply app_nil_r).
  apply absent_elem.
  - rewrite An. assert (W : words_from [] (s "notice " ++ s (severity_name sv)) = [s "notice"; s (severity_name sv)]) by (destruct sv; reflexivity). rewrite W. cbn [existsb].
    rewrite (@not_class "notice") by (now left). rewrite (@not_class (severity_name sv)) by (destruct sv; cbn [severity_name In]; auto). reflexivity.
  - intros h [<-|I]; [|exact (absent_classless CB I)]. apply absent_elem; [reflexivity|]. intros h [<-|[<-|[<-|[]]]].
    + apply absent_elem; [|intros h [<-|[]]; reflexivity]. assert (W : classes [("class", s "severity"); ("title", s (severity_name sv))] = [s "severity"]) by reflexivity. rewrite W. cbn [existsb]. rewrite (@not_class "severity") by (cbn [In]; auto 20). reflexivity.
    + apply absent_elem; [|intros h [<-|[]]; reflexivity]. assert (W : classes [("class", s "ident")] = [s "ident"]) by reflexivity. rewrite W. cbn [existsb]. rewrite (@not_class "ident") by (cbn [In]; auto 20). reflexivity.
    + apply absent_elem; [reflexivity|]. exact (absent_classless CT).
Qed.
Lemma complaints_absent l r : render_complaints resolve magic error_of l = Some r -> forall h, In h r -> absent h.
Proof.
  unfold render_complaints. destruct l as [|c l]; intro H; [assert (r = []) by congruence; subst r; intros h []|]. destruct (all_of (notice_html resolve magic error_of false) (c :: l)) as [q|] eqn:Q; [|discriminate H].
  cbn [option_map] in H. match type of H with Some ?a = _ => assert (r = a) by congruence end. subst r. intros h [<-|[]]. apply absent_elem.
  - assert (W : classes [("class", s "complaints")] = [s "complaints"]) by reflexivity. rewrite W. cbn [existsb]. rewrite (@not_class "complaints") by (cbn [In]; auto 20). reflexivity.
  - clear H. revert Q. generalize (c :: l) as cs. intro cs. revert q. induction cs as [|d cs IH]; intros q Q; cbn [all_of] in Q; [assert (q = []) by congruence; subst q; intros h []|].
    destruct (notice_html resolve magic error_of false d) as [a|] eqn:A; [|discriminate Q]. destruct (all_of (notice_html resolve magic error_of false) cs) as [b|]; [|discriminate Q]. assert (q = a ++ b) by congruence. subst q.
    intros h I. apply in_app_or in I. destruct I as [I|I]; [exact (notice_absent A I)|exact (IH b eq_refl h I)].
Qed.
Variable id_of : nat -> part -> N.
Lemma version_absent m g : forall h, In h (version_html id_of m g) -> absent h.
Proof. unfold version_html. destruct (g_version g) as [[|c x]|]; intros h I; try destruct I. subst h. apply absent_elem; [reflexivity|]. intros h [<-|[]]; reflexivity. destruct H. Qed.
Lemma start_absent m g : forall h, In h (start_html id_of m g) -> absent h.
Proof.
  unfold start_html. destruct (g_start g) as [method target|status reason]; intros h I.
  - destruct I as [<-|[<-|I]]; [apply absent_elem; [reflexivity|]; exact (absent_classless (render_known_classless _ _))|apply absent_elem; [reflexivity|]; intros h [<-|[]]; reflexivity|exact (version_absent I)].
  - apply in_app_or in I. destruct I as [I|[<-|[]]]; [exact (version_absent I)|]. apply absent_elem.
    + assert (W : classes (for_object id_of m PStatus ++ [("class", s "StatusCode")]) = [s "StatusCode"]) by reflexivity. rewrite W. cbn [existsb]. rewrite (@not_class "StatusCode") by (cbn [In]; auto 20). reflexivity.
    + intros h I. apply in_app_or in I. destruct I as [I|[<-|[]]]; [exact (absent_classless (render_known_classless _ _) I)|reflexivity].
Qed.
(** So in a section, elements of the class are only in headers, body and trailer. *)
Lemma section_found m g kk l : render_complaints resolve magic error_of l = Some kk ->
  found k (Elem "section" [] (Elem "div" [("class", s "message-display")] (remark_html g ++ Elem "h2" [] [Elem "code" [] (start_html id_of m g)] :: message_html id_of m g) :: kk)) =
  flat_map (found k) (map (line_html id_of m) (g_headers g)) ++ flat_map (found k) (body_html id_of m (g_body g) (g_transforms g)) ++ flat_map (found k) (map (line_html id_of m) (g_trailers g)).
Proof.
  intro K. rewrite found_elem, flat_map_cons, (absent_all (complaints_absent K)). cbn [classes flat_map existsb app]. rewrite app_nil_r, found_elem.
  assert (W : classes [("class", s "message-display")] = [s "message-display"]) by reflexivity. rewrite W. cbn [existsb]. rewrite (@not_class "message-display") by (cbn [In]; auto 20). cbn [orb app].
  rewrite flat_map_app, flat_map_cons. rewrite (@absent_all (remark_html g)).
  2: { unfold remark_html. destruct (g_remark g) as [[|c x]|]; intros h I; try destruct I. subst h. apply absent_elem.
       - assert (W' : classes [("class", s "message-remark")] = [s "message-remark"]) by reflexivity. rewrite W'. cbn [existsb]. rewrite (@not_class "message-remark") by (cbn [In]; auto 20). reflexivity.
       - intros h [<-|[]]. reflexivity.
       - destruct H. }
  assert (S : found k (Elem "h2" [] [Elem "code" [] (start_html id_of m g)]) = []).
  { apply absent_elem; [reflexivity|]. intros h [<-|[]]. apply absent_elem; [reflexivity|]. apply start_absent. }
  rewrite S. cbn [app]. unfold message_html. rewrite !flat_map_app. f_equal. f_equal. destruct (g_trailers g) as [|l0 ls]; [reflexivity|]. cbn [flat_map]. rewrite app_nil_r, found_elem.
  assert (W' : classes [("class", s "trailer")] = [s "trailer"]) by reflexivity. rewrite W'. cbn [existsb]. rewrite (@not_class "trailer") by (cbn [In]; auto 20). reflexivity.
Qed.
End Report.
End Absent.

(** *** Texts *)
Lemma printable_same x : clean x -> printable x = x.
Proof. intro C. unfold printable. rewrite <- (map_id x) at 2. apply map_ext_in. intros c I. now rewrite (C c I). Qed.
Lemma known_text cls x : flat_map text_of (render_known cls x) = printable x.
Proof. unfold render_known. destruct (known_citation cls x); cbn [flat_map text_of]; now rewrite !app_nil_r. Qed.
Lemma chunk_text c : flat_map text_of (chunk_html c) = piece_shown c.
Proof. destruct c as [b|v]; cbn [chunk_html piece_shown]; [apply app_nil_r|]. destruct v; try (cbn [flat_map text_of]; apply app_nil_r). apply known_text. Qed.
Lemma line_text id_of m p name pieces : text_of (line_html id_of m (p, name, pieces)) = printable name ++ s ": " ++ value_shown pieces.
Proof.
  cbn [line_html text_of flat_map]. rewrite app_nil_r, flat_map_app, known_text, flat_map_cons. cbn [text_of]. f_equal. f_equal. unfold value_shown.
  induction pieces as [|c l IH]; [reflexivity|]. cbn [flat_map]. now rewrite flat_map_app, chunk_text, IH.
Qed.
Lemma line_found id_of m l : found "header-entry" (line_html id_of m l) = [line_html id_of m l].
Proof.
  destruct l as [[p name] pieces]. cbn [line_html]. rewrite found_elem. assert (W : classes (for_object id_of m (PEntry p) ++ [("class", s "header-entry")]) = [s "header-entry"]) by reflexivity. rewrite W.
  cbn [existsb]. rewrite str_eqb_refl. cbn [orb]. cbn [flat_map]. rewrite found_elem. cbn [classes flat_map existsb app]. rewrite classless_all; [reflexivity|].
  rewrite forallb_app, render_known_classless. cbn [forallb classless andb]. apply chunks_classless.
Qed.
Lemma line_body id_of m l : found "body-display" (line_html id_of m l) = [].
Proof.
  destruct l as [[p name] pieces]. cbn [line_html]. rewrite found_elem. assert (W : classes (for_object id_of m (PEntry p) ++ [("class", s "header-entry")]) = [s "header-entry"]) by reflexivity. rewrite W.
  cbn [flat_map]. rewrite found_elem. cbn [classes flat_map existsb app]. rewrite classless_all; [reflexivity|].
  rewrite forallb_app, render_known_classless. cbn [forallb classless andb]. apply chunks_classless.
Qed.
Lemma body_found id_of m b tr : flat_map (found "body-display") (body_html id_of m b tr) = body_html id_of m b tr /\ flat_map (found "header-entry") (body_html id_of m b tr) = [].
Proof.
  assert (W : classes (for_object id_of m PBody ++ [("class", s "body-display")]) = [s "body-display"]) by reflexivity.
  assert (X : forall kids, forallb classless kids = true -> flat_map (found "body-display") [Elem "div" (for_object id_of m PBody ++ [("class", s "body-display")]) kids] = [Elem "div" (for_object id_of m PBody ++ [("class", s "body-display")]) kids] /\
    flat_map (found "header-entry") [Elem "div" (for_object id_of m PBody ++ [("class", s "body-display")]) kids] = []).
  { intros kids C. cbn [flat_map]. rewrite !found_elem, W, !(classless_all _ C), !app_nil_r. split; reflexivity. }
  destruct b as [| |[|c x]]; cbn [body_html]; [apply X; reflexivity|apply X; reflexivity|split; reflexivity|]. apply X. destruct tr; reflexivity.
Qed.
Lemma lines_found id_of m ls : flat_map (found "header-entry") (map (line_html id_of m) ls) = map (line_html id_of m) ls /\ flat_map (found "body-display") (map (line_html id_of m) ls) = [].
Proof. induction ls as [|l ls [A B]]; [split; reflexivity|]. cbn [map flat_map]. rewrite line_found, line_body, A, B. split; reflexivity. Qed.

(** *** Messages *)
Section Message.
Variable E : env.
Variable x : exchange.
Variable id_of : thing -> N.
Variable read : symbol -> str -> option (@presult val vcomplaint).
Hypothesis reader : annotates read.
Variable remark_of : who -> option str.
Variable w : who.
Variable m : nat.
Variable id_in : nat -> part -> N.
Hypothesis ids : forall p, id_in m p = id_of (TPart w p).
Variable g : message.
Hypothesis G : message_data E x remark_of read w = Some g.
Lemma object_stands p l tag kids : stands (id_of (TPart w p)) (Elem tag (for_object id_in m p ++ l) kids).
Proof. cbn [stands for_object app]. left. now rewrite ids. Qed.
Lemma object_stands' p tag kids : stands (id_of (TPart w p)) (Elem tag (for_object id_in m p) kids).
Proof. cbn [stands for_object]. left. now rewrite ids. Qed.
Lemma lines_shown tr l : forall i,
  Forall2 (fun pe h => stands (id_of (TPart w (PEntry (fst pe)))) h /\ header_line (e_name (snd pe)) (e_value (snd pe)) (text_of h))
    (map (fun ie => ((tr, fst ie), snd ie)) (number i l)) (map (line_html id_in m) (map (line_of read tr) (number i l))).
Proof.
  induction l as [|e l IH]; intro i; cbn [number map]; constructor; [|apply IH]. cbn [fst snd]. unfold line_of. cbn [fst snd]. split.
  - apply object_stands.
  - rewrite line_text. exists (value_shown (annotated_value read true (e_name e) (tr, i) e)). split; [reflexivity|]. exact (C72_value_shown true (e_name e) (tr, i) e reader).
Qed.
Lemma version_shown mm : g_version g = m_version mm -> Forall2 (fun pt h => showing (id_of (TPart w (fst pt))) (snd pt) h) (map (pair PVersion) (version_of mm)) (version_html id_in m g).
Proof.
  intro V. unfold version_html, version_of. rewrite V. destruct (m_version mm) as [[|c v]|]; cbn [map]; constructor; [|constructor]. cbn [fst snd]. split; [apply object_stands'|].
  cbn [text_of flat_map]. apply app_nil_r.
Qed.
Lemma known_span p cls v : showing (id_of (TPart w p)) (printable v) (Elem "span" (for_object id_in m p) (render_known cls v)).
Proof. split; [apply object_stands'|]. cbn [text_of]. apply known_text. Qed.
Lemma start_spans : below "span" (Elem "code" [] (start_html id_in m g)) = start_html id_in m g.
Proof. unfold below, start_html, version_html. cbn [kids_of]. destruct (g_start g); destruct (g_version g) as [[|c v]|]; reflexivity. Qed.
Lemma complaints_no_h2 {Ctx} (resolve : Ctx -> list string -> option (list N * data)) magic error_of l kk : render_complaints resolve magic error_of l = Some kk -> flat_map (below "h2") (filter (fun k => match k with Elem t _ _ => String.eqb t "div" | Text _ => false end) kk) = [].
Proof.
  unfold render_complaints. destruct l as [|c l]; intro H; [assert (kk = []) by congruence; subst kk; reflexivity|]. destruct (all_of (notice_html resolve magic error_of false) (c :: l)) as [q|] eqn:Q; [|discriminate H].
  cbn [option_map] in H. match type of H with Some ?a = _ => assert (kk = a) by congruence end. subst kk. cbn [filter String.eqb Ascii.eqb Bool.eqb flat_map]. rewrite app_nil_r. unfold below. cbn [kids_of]. clear H.
  revert Q. generalize (c :: l) as cs. intro cs. revert q. induction cs as [|d cs IH]; intros q Q; cbn [all_of] in Q; [assert (q = []) by congruence; subst q; reflexivity|].
  destruct (notice_html resolve magic error_of false d) as [a|] eqn:A; [|discriminate Q]. destruct (all_of (notice_html resolve magic error_of false) cs) as [b|]; [|discriminate Q]. assert (q = a ++ b) by congruence. subst q.
  rewrite filter_app, (IH b eq_refl), app_nil_r. unfold notice_html in A. destruct (severity_of (fst d)); [|discriminate A]. destruct (template_of (fst d)) as [[ti ex]|]; [|discriminate A].
  destruct (all_of _ ti); [|discriminate A]. destruct (all_of _ ex); [|discriminate A]. match type of A with Some ?z = _ => assert (a = z) by congruence end. subst a. reflexivity.
Qed.
Lemma message_no_h2 : filter (fun k => match k with Elem t _ _ => String.eqb t "h2" | Text _ => false end) (message_html id_in m g) = [].
Proof.
  unfold message_html. rewrite !filter_app.
  assert (L : forall ls, filter (fun k => match k with Elem t _ _ => String.eqb t "h2" | Text _ => false end) (map (line_html id_in m) ls) = []).
  { induction ls as [|[[p n] pc] ls IH]; [reflexivity|]. cbn [map line_html filter String.eqb Ascii.eqb Bool.eqb]. exact IH. }
  rewrite L. cbn [app]. destruct (g_body g) as [| |[|c t]]; cbn [body_html filter String.eqb Ascii.eqb Bool.eqb app]; destruct (g_trailers g); reflexivity.
Qed.
End Message.
(** The first line of a section, and its lines for headers. *)
Lemma section_start {Ctx} (resolve : Ctx -> list string -> option (list N * data)) magic error_of l kk id_in m g : render_complaints resolve magic error_of l = Some kk ->
  start_line (Elem "section" [] (Elem "div" [("class", s "message-display")] (remark_html g ++ Elem "h2" [] [Elem "code" [] (start_html id_in m g)] :: message_html id_in m g) :: kk)) = start_html id_in m g.
Proof.
  intro K. unfold start_line. unfold below at 4. cbn [kids_of filter]. cbn [String.eqb Ascii.eqb Bool.eqb]. rewrite flat_map_cons, (complaints_no_h2 K), app_nil_r. unfold below at 3. cbn [kids_of]. rewrite filter_app. cbn [filter]. rewrite message_no_h2.
      assert (R : filter (fun k => match k with Elem t _ _ => String.eqb t "h2" | Text _ => false end) (remark_html g) = []) by (unfold remark_html; destruct (g_remark g) as [[|c t]|]; reflexivity).
      rewrite R. cbn [app String.eqb Ascii.eqb Bool.eqb flat_map]. rewrite app_nil_r. unfold below at 2. cbn [kids_of filter String.eqb Ascii.eqb Bool.eqb flat_map]. rewrite app_nil_r. apply start_spans.
Qed.
Lemma section_lines {Ctx} (resolve : Ctx -> list string -> option (list N * data)) magic error_of l kk id_in m g : render_complaints resolve magic error_of l = Some kk ->
  found "header-entry" (Elem "section" [] (Elem "div" [("class", s "message-display")] (remark_html g ++ Elem "h2" [] [Elem "code" [] (start_html id_in m g)] :: message_html id_in m g) :: kk)) = map (line_html id_in m) (g_headers g) ++ map (line_html id_in m) (g_trailers g).
Proof.
  intro K. rewrite (@section_found "header-entry" eq_refl _ _ _ _ _ _ _ _ _ K). rewrite (proj1 (lines_found _ _ (g_headers g))), (proj1 (lines_found _ _ (g_trailers g))), (proj2 (body_found _ _ _ _)). reflexivity.
Qed.
Lemma section_shows E x id_of read remark_of w m id_in g {Ctx} (resolve : Ctx -> list string -> option (list N * data)) magic error_of l kk : annotates read -> (forall p, id_in m p = id_of (TPart w p)) ->
  message_data E x remark_of read w = Some g -> render_complaints resolve magic error_of l = Some kk ->
  shows_message E x id_of w (Elem "section" [] (Elem "div" [("class", s "message-display")] (remark_html g ++ Elem "h2" [] [Elem "code" [] (start_html id_in m g)] :: message_html id_in m g) :: kk)).
Proof.
  intros reader ids G K. unfold message_data in G. destruct (subject_at x w) as [j|] eqn:J; [|discriminate G]. destruct (start_of x w) as [st|] eqn:St; [|discriminate G].
  destruct (snd (displayable_body j E)) as [[v steps]|] eqn:D; [|discriminate G].
  match type of G with Some ?a = _ => assert (GE : g = a) by congruence end. clear G.
  exists j. split; [exact J|]. split; [|split].
  - pose proof (@section_start _ resolve magic error_of l kk id_in m g K) as SL.
    rewrite SL. unfold shows_start. unfold subject_at in J. unfold start_of in St. destruct w as [|i].
    + destruct (x_request x) as [q|]; [|discriminate J]. cbn [option_map] in J, St. exists q. split; [reflexivity|]. assert (j = of_request q) by congruence. subst j.
      assert (S' : st = StartRequest (q_method q) (q_target q)) by congruence. unfold start_html. rewrite GE at 1. cbn [g_start]. rewrite S'. cbn [app]. constructor; [now apply known_span|]. constructor.
      * split; [now apply object_stands'|]. cbn [snd text_of flat_map]. apply app_nil_r.
      * apply version_shown; [exact ids|]. rewrite GE. reflexivity.
    + destruct (nth_error (x_responses x) i) as [p|] eqn:P; [|discriminate J]. cbn [option_map] in J, St. exists p. split; [reflexivity|]. assert (j = of_response i p (x_request x)) by congruence. subst j.
      assert (S' : st = StartResponse (p_status p) (p_reason p)) by congruence. unfold start_html. rewrite GE at 1. cbn [g_start]. rewrite S'. apply Forall2_app; [apply version_shown; [exact ids|rewrite GE; reflexivity]|]. constructor; [|constructor].
      split; [now apply object_stands|]. cbn [snd text_of]. rewrite flat_map_app, known_text, (printable_same (@show_clean (p_status p))). cbn [flat_map text_of]. now rewrite app_nil_r.
  - rewrite (section_lines id_in m g K).
    rewrite GE. cbn [g_headers g_trailers]. unfold entries_of. apply Forall2_app; now apply lines_shown.
  - rewrite (@section_found "body-display" eq_refl _ _ _ _ _ _ _ _ _ K). rewrite (proj2 (lines_found _ _ (g_headers g))), (proj2 (lines_found _ _ (g_trailers g))), (proj1 (body_found _ _ _ _)), app_nil_r. cbn [app].
    exists v, steps. split; [exact D|]. rewrite GE. cbn [g_body g_transforms].
    assert (Un : forall b tr, body_html id_in m Unavailable_ tr = b -> exists h, b = [h] /\ stands (id_of (TPart w PBody)) h /\ parts_of h = [s "Body is present, but not available for inspection"]).
    { intros b tr <-. cbn [body_html]. eexists. split; [reflexivity|]. split; [now apply object_stands|]. unfold parts_of. cbn [kids_of map text_of flat_map]. now rewrite app_nil_r. }
    destruct v as [t| | | | | | | | | | |]; try (right; exact (Un _ _ eq_refl)).
    + destruct t as [|c t]; [left; split; reflexivity|]. right. cbn [body_html]. eexists. split; [reflexivity|]. split; [now apply object_stands|]. split; [discriminate|]. unfold parts_of. cbn [kids_of]. rewrite map_app. cbn [map text_of flat_map]. rewrite app_nil_r. f_equal.
      destruct steps; [reflexivity|]. cbn [map text_of flat_map]. now rewrite app_nil_r.
    + right. cbn [body_html]. eexists. split; [reflexivity|]. split; [now apply object_stands|]. unfold parts_of. cbn [kids_of map text_of flat_map]. now rewrite app_nil_r.
Qed.

(** *** Exchanges *)
Section Whole.
Variable E : env.
Variable exchange_at : nat -> exchange.
Variable other : node -> str.
Variable id_of : nat -> thing -> N.
Variable failed : nat -> who * list (str * carg) -> failure.
Variable remark_of : nat -> who -> option str.
Variable read : symbol -> str -> option (@presult val vcomplaint).
Variable visible : obj -> list (N * (nat * (who * list (str * carg)))).
Notation section_html := (section_html (resolve_in E exchange_at other id_of) (magic_in E exchange_at id_of) (error_in failed) (message_in E exchange_at remark_of read) (id_in id_of) visible).
Notation exchange_kids := (exchange_kids (resolve_in E exchange_at other id_of) (magic_in E exchange_at id_of) (error_in failed) (message_in E exchange_at remark_of read) (id_in id_of) visible (request_number exchange_at) (response_numbers exchange_at)).
(** What sections show, if all do. *)
Variable P : nat -> who -> html -> Prop.
Hypothesis all_show : forall e w h, section_html (message_number e w) = Some [h] -> P e w h.
Lemma sections_of e ws : forall k, all_of (fun p => rule_after (section_html p)) (map (message_number e) ws) = Some k -> Forall2 (P e) ws (filter is_section k) /\ (k = [] -> ws = []).
Proof.
  induction ws as [|w ws IH]; intros k H; cbn [map all_of] in H; [assert (k = []) by congruence; subst k; split; [constructor|reflexivity]|].
  destruct (section_html (message_number e w)) as [l|] eqn:L; cbn [rule_after option_map] in H; [|discriminate H]. destruct (all_of (fun p => rule_after (section_html p)) (map (message_number e) ws)) as [y|]; [|discriminate H].
  destruct (section_shape L) as (h & -> & S & _). pose proof (all_show L) as F. assert (k = ([h] ++ [Elem "hr" [] []]) ++ y) by congruence. subst k. destruct (IH y eq_refl) as (A & _). cbn [app].
  split; [cbn [filter]; rewrite S; constructor; [exact F|exact A]|discriminate].
Qed.
Lemma exchange_of e k : exchange_kids e = Some k -> (k = [] -> whos (exchange_at e) = [] /\ visible (Exch e) = []) /\ Forall2 (P e) (whos (exchange_at e)) (filter is_section k).
Proof.
  intro H. pose proof (kids_shape H) as (K1 & _). unfold Html.exchange_kids in H. 
  assert (W : messages_of (request_number exchange_at) (response_numbers exchange_at) e = map (message_number e) (whos (exchange_at e))).
  { unfold messages_of, request_number, response_numbers, whos. rewrite map_app, map_map. destruct (x_request (exchange_at e)); reflexivity. }
  assert (A : forall a, (match request_number exchange_at e with Some q => rule_after (section_html q) | None => Some [] end) = Some a -> all_of (fun p => rule_after (section_html p)) (map (message_number e) (match x_request (exchange_at e) with Some _ => [Req] | None => [] end)) = Some a).
  { intros a. unfold request_number. destruct (x_request (exchange_at e)) as [q|]; cbn [option_map map all_of]; intro X; [|exact X]. rewrite X. now rewrite app_nil_r. }
  destruct (match request_number exchange_at e with Some q => rule_after (section_html q) | None => Some [] end) as [a|]; [|discriminate H]. specialize (A a eq_refl).
  destruct (all_of (fun p => rule_after (section_html p)) (response_numbers exchange_at e)) as [b|] eqn:B; [|discriminate H].
  assert (C : forall c, (match visible (Exch e) with [] => Some [] | l => rule_after (render_complaints (resolve_in E exchange_at other id_of) (magic_in E exchange_at id_of) (error_in failed) l) end) = Some c -> filter is_section c = []).
  { intros c X. destruct (visible (Exch e)) as [|v l]; [assert (c = []) by congruence; now subst c|].
    destruct (render_complaints (resolve_in E exchange_at other id_of) (magic_in E exchange_at id_of) (error_in failed) (v :: l)) as [x|] eqn:Y; [|discriminate X]. cbn [rule_after option_map] in X. assert (c = x ++ [Elem "hr" [] []]) by congruence. subst c.
    rewrite filter_app, (filter_none (proj2 (complaints_shape Y))). reflexivity. }
  destruct (match visible (Exch e) with [] => Some [] | l => rule_after (render_complaints (resolve_in E exchange_at other id_of) (magic_in E exchange_at id_of) (error_in failed) l) end) as [c|]; [|discriminate H].
  specialize (C c eq_refl). assert (k = a ++ b ++ c) by congruence. subst k.
  split.
  - intro Z. destruct (K1 Z) as [N1 N2]. split; [|exact N2]. rewrite W in N1. now apply map_eq_nil in N1.
  - rewrite !filter_app, C, app_nil_r. unfold whos. apply Forall2_app; [exact (proj1 (sections_of A))|]. unfold response_numbers in B. rewrite <- (map_map Resp (message_number e)) in B. exact (proj1 (sections_of B)).
Qed.
Lemma report_display es : let report := report_html E exchange_at other id_of failed remark_of read visible es in
  exists written rest, es = written ++ rest /\ display P exchange_at (fun e => visible (Exch e) = []) written (fst report) /\ (snd report = true <-> rest = []).
Proof.
  cbv zeta. unfold report_html.
  induction es as [|e es IH]; [exists [], []; split; [reflexivity|]; split; [constructor|split; reflexivity]|]. cbn [Html.html_report].
  match goal with |- context [match ?z with Some _ => _ | None => _ end] => destruct z as [k|] eqn:K end.
  - destruct IH as (written & rest & -> & B & D). match goal with |- context [let (_, _) := ?z in _] => destruct z as [out done] end. cbn [fst snd] in *.
    exists (e :: written), rest. split; [reflexivity|]. split; [|exact D].
    destruct (exchange_of K) as (K1 & K2). destruct k as [|h k]; [destruct (K1 eq_refl); now apply display_skip|]. apply display_box; [exact K2|exact B].
  - exists [], (e :: es). split; [reflexivity|]. split; [constructor|]. cbn [snd]. split; discriminate.
Qed.
End Whole.

(** ** Theorem *)

(** C76.  As far as it is written, the report shows each exchange: a section for the
    request and then one for each response, and in each section the parts of that message: the first line, each
    header and trailer (with its name and value), and the body. *)
Theorem C76_displayed : forall E exchange_at other id_of failed remark_of read visible es,
  annotates read ->
  let report := report_html E exchange_at other id_of failed remark_of read visible es in
  exists written rest, es = written ++ rest /\
    display (fun e w sec => shows_message E (exchange_at e) (id_of e) w sec) exchange_at (fun e => visible (Exch e) = []) written (fst report) /\
    (snd report = true <-> rest = []).
Proof.
  intros E exchange_at other id_of failed remark_of read visible es reader. apply report_display. intros e w h H.
  unfold Html.section_html in H. unfold message_in at 1 in H. rewrite place_of_number in H. destruct (message_data E (exchange_at e) (remark_of e) read w) as [g|] eqn:G; [|discriminate H].
  destruct (render_complaints (resolve_in E exchange_at other id_of) (magic_in E exchange_at id_of) (error_in failed) (visible (Msg (message_number e w)))) as [k|] eqn:K; [|discriminate H].
  match type of H with Some [?a] = _ => assert (h = a) by congruence end. subst h.
  assert (I : forall p, id_in id_of (message_number e w) p = id_of e (TPart w p)) by (intro p; unfold id_in; now rewrite place_of_number).
  exact (section_shows reader I G K).
Qed.
Print Assumptions C76_displayed.

(** A request with a header and a trailer, and a response with a body that is not known. *)
Definition shown_exchange : exchange :=
  Exchange (Some (Request (Message (Some (s "HTTP/1.1")) {| header_entries := [Entry (s "Age") (s "10")]; trailer_entries := [Entry (s "X-Foo") (s "a: b")] |} (VBytes (s "abc")) None None) (Some (s "http")) (s "PUT") (s "/x")))
    [Response (Message None {| header_entries := []; trailer_entries := [] |} VNone None None) 404 None].
Definition shown_report : list html * bool :=
  report_html html_env (fun _ => shown_exchange) (fun _ => s "?") (fun _ _ => 7%N) (fun _ _ => FOther []) (fun _ _ => None) (run_annotated 300) (fun _ => []) [0].
Example C76_example : annotates (run_annotated 300) /\ snd shown_report = true /\
  map (fun h => map (fun sec => (map text_of (start_line sec), map text_of (found "header-entry" sec), map parts_of (found "body-display" sec))) (filter is_section (kids_of h))) (fst shown_report) =
    [[(map s ["PUT"; "/x"; "HTTP/1.1"], map s ["Age: 10"; "X-Foo: a: b"], [map s ["abc"]]); (map s ["404 Not Found"], [], [[s "Body is unknown"]])]].
Proof. split; [apply run_annotates|]. split; vm_compute; reflexivity. Qed.
