(** C79: the links in the displays of messages. *)
From Coq Require Import ZifyBool ZifyNat ZifyN String.
From Verif Require Import Base Earley Grammar Parse Text P_Util Actions Structure Known Tables Header HeaderProofs P_Header Values Notices Citation Links Templates Catalogue Titles Blackboard
  ChecksBase ChecksViews ChecksMessage ChecksRequest ChecksResponse ChecksExample P_Exchange Reports P_Catalogue P_Bodies Annotated Verbatim P_Annotated TextReport P_Reports SafeMessage P_Safe P_Looks Html HtmlData P_Html P_HtmlData P_Markup P_Display.
Open Scope nat_scope.
Open Scope list_scope.
Unset Strict Implicit.
Local Open Scope string_scope.
Local Open Scope list_scope.

(** ** Specification *)

(** The kinds of things whose names are the same in any case. *)
Definition ignoring_case : list string :=
  ["FieldName"; "TransferCoding"; "ContentCoding"; "MediaType"; "RangeUnit"; "CacheDirective"; "AuthScheme"; "HSTSDirective"; "Preference"; "ForwardedParam"].
(** A table of things of a kind has a row for something, with a title and a citation. *)
Inductive tabled (kind x : str) (title : option str) (c : option cite) : Prop :=
| tabled_row cls rows key : s cls = kind -> In (cls, rows) link_tables -> In (key, title, c) rows ->
    (In cls ignoring_case -> lower key = lower x) -> (~ In cls ignoring_case -> key = x) -> tabled kind x title c.
(** The title of a link: the title in the table, with that of the citation. *)
Definition link_title (title : option str) (c : cite) (v : str) : Prop :=
  match title, cite_title c with
  | Some (b :: t), Some (a :: u) => v = (b :: t) ++ s " (" ++ (a :: u) ++ s ")"
  | Some (b :: t), _ => v = b :: t
  | _, Some (a :: u) => v = a :: u
  | _, _ => False
  end.
(** Something is shown as a link to what the table cites for it, and as text if that cites nothing. *)
Definition linked (kind x : str) (l : list html) : Prop :=
  (exists title c attrs, tabled kind x title (Some c) /\ l = [Elem "a" attrs [Text (printable x)]] /\
     (forall v, In ("href", v) attrs <-> v = cite_url c) /\ (forall v, In ("title", v) attrs <-> link_title title c v)) \/
  ((forall title c, ~ tabled kind x title (Some c)) /\ l = [Text (printable x)]).
(** A value: the objects in it are linked, and the rest of it is text. *)
Definition linked_piece (c : chunk val) (l : list html) : Prop :=
  match c with
  | Bytes b => l = [Text (printable b)]
  | Obj (VObj kind _ as v) => linked kind (known_str v) l
  | Obj _ => False
  end.
Section Spec.
Variable x : exchange.
Variable read : symbol -> str -> option (@presult val vcomplaint).
(** The links in a section. *)
Definition links_start (w : who) (spans : list html) : Prop :=
  match w with
  | Req => exists q h rest, x_request x = Some q /\ spans = h :: rest /\ linked (s "Method") (q_method q) (kids_of h)
  | Resp i => exists p before h k, nth_error (x_responses x) i = Some p /\ spans = before ++ [h] /\ kids_of h = k ++ [Text (s " " ++ printable (reason_phrase (p_status p) (p_reason p)))] /\ linked (s "StatusCode") (show (p_status p)) k
  end.
Definition links_line (pe : place * Header.entry) (h : html) : Prop :=
  exists code k ls, kids_of h = [code] /\ kids_of code = k ++ Text (s ": ") :: List.concat ls /\
    linked (s "FieldName") (e_name (snd pe)) k /\ Forall2 linked_piece (annotated_value read true (e_name (snd pe)) (fst pe) (snd pe)) ls.
Definition links_message (w : who) (sec : html) : Prop :=
  links_start w (start_line sec) /\ exists j, subject_at x w = Some j /\ Forall2 links_line (entries_of (j_msg j)) (found "header-entry" sec).
End Spec.

(** ** Proofs *)
Lemma caseless_spec cls : caseless cls = true <-> In cls ignoring_case.
Proof.
  unfold caseless. rewrite existsb_exists. split.
  - intros (c & I & E). apply String.eqb_eq in E. subst c. exact I.
  - intro I. exists cls. split; [exact I|]. apply String.eqb_refl.
Qed.
Lemma key_spec cls a b : same_key cls a b = true <-> (In cls ignoring_case -> lower a = lower b) /\ (~ In cls ignoring_case -> a = b).
Proof.
  unfold same_key. destruct (caseless cls) eqn:C.
  - apply caseless_spec in C. split.
    + intro H. apply ci_eq_lower in H. split; [auto|]. intro N. destruct (N C).
    + intros [H _]. apply ci_eq_lower. exact (H C).
  - assert (N : ~ In cls ignoring_case) by (intro I; apply caseless_spec in I; congruence). rewrite str_eqb_eq. split; [intros ->; auto|]. intros [_ H]. exact (H N).
Qed.
Definition norm (cls : string) (k : str) : str := if caseless cls then lower k else k.
Fixpoint distinct (l : list str) : bool := match l with [] => true | a :: l' => negb (existsb (str_eqb a) l') && distinct l' end.
Lemma tables_distinct : forallb (fun t => distinct (map (fun r => norm (fst t) (fst (fst r))) (snd t))) link_tables && distinct (map (fun t => s (fst t)) link_tables) = true.
Proof. vm_compute. reflexivity. Qed.
Lemma distinct_inj {A} (f : A -> str) l : distinct (map f l) = true -> forall a b, In a l -> In b l -> f a = f b -> a = b.
Proof.
  induction l as [|c l IH]; intros D a b I J E; [destruct I|]. cbn [map distinct] in D. apply andb_true_iff in D. destruct D as [N D]. apply negb_true_iff in N.
  assert (Out : forall d, In d l -> f c <> f d).
  { intros d K Q. assert (T : existsb (str_eqb (f c)) (map f l) = true); [|congruence]. apply existsb_exists. exists (f d). split; [now apply in_map|]. now apply str_eqb_eq. }
  destruct I as [<-|I], J as [<-|J]; [reflexivity|destruct (Out b J E)|destruct (Out a I (eq_sym E))|exact (IH D a b I J E)].
Qed.
Lemma table_unique cls cls' rows rows' : s cls = s cls' -> In (cls, rows) link_tables -> In (cls', rows') link_tables -> cls = cls' /\ rows = rows'.
Proof.
  intros E I J. pose proof tables_distinct as D. apply andb_true_iff in D. destruct D as [_ D]. pose proof (distinct_inj (f := fun t => s (fst t)) D I J E) as Q. split; [exact (f_equal fst Q)|exact (f_equal snd Q)].
Qed.
Lemma row_unique cls rows k k' t t' c c' : In (cls, rows) link_tables -> In (k, t, c) rows -> In (k', t', c') rows -> norm cls k = norm cls k' -> (t, c) = (t', c').
Proof.
  intros T I J E. pose proof tables_distinct as D. apply andb_true_iff in D. destruct D as [D _]. rewrite forallb_forall in D. specialize (D (cls, rows) T). cbn [fst snd] in D.
  pose proof (distinct_inj (f := fun r => norm cls (fst (fst r))) D I J E) as Q. pose proof (f_equal snd Q) as Q2. pose proof (f_equal (fun r => snd (fst r)) Q) as Q1. cbn [fst snd] in Q1, Q2. congruence.
Qed.
Lemma same_norm cls a b : same_key cls a b = true <-> norm cls a = norm cls b.
Proof. unfold same_key, norm. destruct (caseless cls); [apply ci_eq_lower|apply str_eqb_eq]. Qed.
Lemma known_row_spec cls x t c : known_row cls x = Some (t, c) <-> tabled (s cls) x t c.
Proof.
  unfold known_row. split.
  - destruct (find (fun t => String.eqb (fst t) cls) link_tables) as [[cls' rows]|] eqn:F; [|discriminate]. apply find_some in F. cbn [fst snd] in F. destruct F as [I Q]. apply String.eqb_eq in Q. subst cls'. cbn [snd].
    destruct (find (fun r => same_key cls (fst (fst r)) x) rows) as [[[k t'] c']|] eqn:F; [|discriminate]. apply find_some in F. cbn [fst snd option_map] in *. destruct F as [J K]. intro H. assert (t' = t) by congruence. assert (c' = c) by congruence. subst t' c'.
    apply key_spec in K. exact (tabled_row eq_refl I J (proj1 K) (proj2 K)).
  - intros [cls' rows k E I J K1 K2]. 
    destruct (find (fun t => String.eqb (fst t) cls) link_tables) as [[cls2 rows2]|] eqn:F.
    + apply find_some in F. cbn [fst] in F. destruct F as [I2 Q]. apply String.eqb_eq in Q. subst cls2. destruct (table_unique E I I2) as [-> ->]. cbn [snd].
      destruct (find (fun r => same_key cls (fst (fst r)) x) rows2) as [[[k' t'] c']|] eqn:F2.
      * apply find_some in F2. cbn [fst] in F2. destruct F2 as [J2 K']. cbn [option_map fst snd]. f_equal. assert (Kx : same_key cls k x = true) by (apply key_spec; auto). apply same_norm in Kx. apply same_norm in K'.
        apply (row_unique I2 J2 J). congruence.
      * pose proof (find_none _ _ F2 _ J) as N. cbv beta in N. cbn [fst] in N. assert (Kx : same_key cls k x = true) by (apply key_spec; auto). congruence.
    + exfalso. assert (Q : cls' = cls).
      { clear - E. revert cls E. induction cls' as [|a u IH]; intros [|b v] E; try discriminate E; [reflexivity|]. cbn in E. assert (E1 : Ascii.N_of_ascii a = Ascii.N_of_ascii b) by congruence. assert (E2 : s u = s v) by (unfold s in *; congruence).
        apply (f_equal Ascii.ascii_of_N) in E1. rewrite !Ascii.ascii_N_embedding in E1. subst b. f_equal. now apply IH. }
      subst cls'. pose proof (find_none _ _ F _ I) as N. cbv beta in N. cbn [fst] in N. rewrite String.eqb_refl in N. discriminate N.
Qed.
Lemma rendered cls x : linked (s cls) x (render_known cls x).
Proof.
  unfold render_known, known_citation. destruct (known_row cls x) as [[t [c|]]|] eqn:R.
  - pose proof (proj1 (known_row_spec _ _ _ _) R) as T. left. unfold known_title_cited. rewrite R. eexists t, c, _. split; [exact T|]. split; [reflexivity|].
    split.
    + intro v. cbn [In]. split; [|intros ->; now left]. intros [H|H]; [congruence|]. destruct (row_title t (Some c)) as [[|b u]|]; cbn [In] in H; try contradiction. destruct H as [H|[]]. discriminate (f_equal fst H).
    + intro v. unfold row_title, link_title. destruct (cite_title c) as [[|a u]|]; destruct t as [[|b w]|]; cbn [In];
        (split; [intros [H|H]; [discriminate (f_equal fst H)|]; try contradiction; try (destruct H as [H|[]]; apply (f_equal snd) in H; cbn [snd] in H; rewrite <- H; reflexivity)|intro H; try contradiction; right; left; rewrite H; reflexivity]).
  - right. split; [|reflexivity]. intros t' c' T. apply known_row_spec in T. congruence.
  - right. split; [|reflexivity]. intros t' c' T. apply known_row_spec in T. congruence.
Qed.
Lemma rendered_class kind x : linked kind x (render_known (class_name kind) x).
Proof.
  unfold class_name. destruct (find (fun t => str_eqb (s (fst t)) kind) link_tables) as [t|] eqn:F.
  - apply find_some in F. destruct F as [_ E]. apply str_eqb_eq in E. rewrite <- E. apply rendered.
  - right. split; [|reflexivity]. intros title c [cls rows key E I _ _ _]. pose proof (find_none _ _ F _ I) as N. cbv beta in N. cbn [fst] in N. rewrite E, (proj2 (str_eqb_eq _ _) eq_refl) in N. discriminate N.
Qed.
Lemma pieces_linked read name p e : annotates read -> exists ls, flat_map chunk_html (annotated_value read true name p e) = List.concat ls /\ Forall2 linked_piece (annotated_value read true name p e) ls.
Proof.
  intro An. destruct (C72_objects true name p e An) as (slices & _ & _ & O).
  assert (O' : forall o, In (Obj o) (annotated_value read true name p e) -> exists cls t, o = VObj cls [VStr t]).
  { intros o I. apply In_nth_error in I. destruct I as [k K]. specialize (O k). rewrite K in O. destruct O as (cls & t & Q & _). eauto. }
  clear O. revert O'. generalize (annotated_value read true name p e) as cs. intro cs. exists (map chunk_html cs). split; [apply flat_map_concat_map|]. induction cs as [|c cs IH]; cbn [map]; constructor; [|apply IH; intros o I; apply O'; now right].
  destruct c as [b|o]; cbn [linked_piece chunk_html]; [reflexivity|]. destruct (O' o (or_introl eq_refl)) as (cls & t & ->). apply rendered_class.
Qed.
Lemma lines_linked read id_in m tr l : annotates read -> forall i, Forall2 (links_line read) (map (fun ie => ((tr, fst ie), snd ie)) (number i l)) (map (line_html id_in m) (map (line_of read tr) (number i l))).
Proof.
  intros An. induction l as [|e l IH]; intro i; cbn [number map]; constructor; [|apply IH]. unfold links_line, line_of. cbn [fst snd line_html kids_of]. destruct (pieces_linked (e_name e) (tr, i) e An) as (ls & L & F).
  eexists _, (render_known "FieldName" (e_name e)), ls. split; [reflexivity|]. split; [cbn [kids_of]; now rewrite L|]. split; [apply rendered|exact F].
Qed.

(** ** Theorem *)

(** C79.  As far as the report is written, in the section for each message its method or
    its status, the name of each header, and each object in its value, are links
    to what HTTPolice's tables cite for them, with titles from there; if they cite nothing,
    they are just text. *)
Theorem C79_links : forall E exchange_at other id_of failed remark_of read visible es,
  annotates read ->
  let report := report_html E exchange_at other id_of failed remark_of read visible es in
  exists written rest, es = written ++ rest /\
    display (fun e w sec => links_message (exchange_at e) read w sec) exchange_at (fun e => visible (Exch e) = []) written (fst report) /\
    (snd report = true <-> rest = []).
Proof.
  intros E exchange_at other id_of failed remark_of read visible es reader. apply report_display. intros e w h H.
  unfold Html.section_html in H. unfold message_in at 1 in H. rewrite place_of_number in H. destruct (message_data E (exchange_at e) (remark_of e) read w) as [g|] eqn:G; [|discriminate H].
  destruct (render_complaints (resolve_in E exchange_at other id_of) (magic_in E exchange_at id_of) (error_in failed) (visible (Msg (message_number e w)))) as [k|] eqn:K; [|discriminate H].
  match type of H with Some [?a] = _ => assert (h = a) by congruence end. subst h. clear H. unfold links_message.
  rewrite (@section_start _ _ _ _ _ _ (id_in id_of) (message_number e w) g K), (@section_lines _ _ _ _ _ _ (id_in id_of) (message_number e w) g K).
  unfold message_data in G. destruct (subject_at (exchange_at e) w) as [j|] eqn:J; [|discriminate G]. destruct (start_of (exchange_at e) w) as [st|] eqn:St; [|discriminate G].
  destruct (snd (displayable_body j E)) as [[v steps]|] eqn:D; [|discriminate G]. match type of G with Some ?a = _ => assert (GE : g = a) by congruence end. clear G.
  split.
  - unfold links_start, start_html. rewrite GE. cbn [g_start]. unfold start_of in St. unfold subject_at in J. destruct w as [|i].
    + destruct (x_request (exchange_at e)) as [q|]; [|discriminate J]. cbn [option_map] in St. assert (S' : st = StartRequest (q_method q) (q_target q)) by congruence. rewrite S'. eexists q, _, _. split; [reflexivity|]. split; [reflexivity|]. cbn [kids_of]. apply rendered.
    + destruct (nth_error (x_responses (exchange_at e)) i) as [p|]; [|discriminate J]. cbn [option_map] in St. assert (S' : st = StartResponse (p_status p) (p_reason p)) by congruence. rewrite S'. eexists p, _, _, _. split; [reflexivity|]. split; [reflexivity|]. cbn [kids_of]. split; [reflexivity|apply rendered].
  - exists j. split; [reflexivity|]. rewrite GE. cbn [g_headers g_trailers]. unfold entries_of. apply Forall2_app; now apply lines_linked.
Qed.
Print Assumptions C79_links.

(** In [shown_report], the method and the Age header are links, X-Foo is not. *)
Example C79_example : annotates (run_annotated 300) /\ snd shown_report = true /\
  tabled (s "Method") (s "PUT") None (Some (RFC 7231 (Some (s "4.3.4")) None None)) /\ tabled (s "FieldName") (s "age") None (Some (RFC 7234 (Some (s "5.1")) None None)) /\
  (forall title c, ~ tabled (s "FieldName") (s "X-Foo") title (Some c)) /\
  map (fun h => map (fun sec => map (fun h => flat_map kids_of (kids_of h)) (found "header-entry" sec)) (filter is_section (kids_of h))) (fst shown_report) =
    [[[[Elem "a" [("href", s "https://tools.ietf.org/html/rfc7234#section-5.1"); ("title", s "RFC" ++ nbsp ++ s "7234 " ++ [167%N] ++ nbsp ++ s "5.1")] [Text (s "Age")]; Text (s ": "); Text (s "10")];
       [Text (s "X-Foo"); Text (s ": "); Text (s "a: b")]]; []]].
Proof.
  split; [apply run_annotates|]. split; [vm_compute; reflexivity|]. split; [apply (proj1 (known_row_spec "Method" (s "PUT") _ _)); vm_compute; reflexivity|].
  split; [apply (proj1 (known_row_spec "FieldName" (s "age") _ _)); vm_compute; reflexivity|]. split; [|vm_compute; reflexivity].
  intros title c T. apply (proj2 (known_row_spec "FieldName" (s "X-Foo") _ _)) in T. assert (N : known_row "FieldName" (s "X-Foo") = None) by (vm_compute; reflexivity). congruence.
Qed.
