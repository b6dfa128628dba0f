(** C74: what in the HTML report can come from the messages. *)
From Coq Require Import ZifyBool ZifyNat ZifyN String.
From Verif Require Import Base Earley Grammar Parse Text P_Util Actions Structure Known Tables Header HeaderProofs P_Header Values Notices Citation Links Templates Catalogue Titles Blackboard
  ChecksBase ChecksMessage ChecksRequest ChecksResponse ChecksExample P_Exchange Reports P_Catalogue P_Bodies Annotated TextReport P_Reports SafeMessage P_Safe P_Looks Html HtmlData P_Html P_HtmlData.
Open Scope nat_scope.
Open Scope list_scope.
Unset Strict Implicit.
Local Open Scope string_scope.
Local Open Scope list_scope.

(** ** Specification *)

(** All citations that HTTPolice comes with: of names and numbers, in the texts of
    notices, and of symbols of the grammar. *)
Definition all_cites : list cite :=
  flat_map (fun t => flat_map (fun r => match snd r with Some c => [c] | None => [] end) (snd t)) link_tables ++
  flat_map (fun t => flat_map elem_cites (fst (snd t)) ++ flat_map block_cites (snd (snd t))) templates ++
  grammar_cites.
(** All titles that it has for names and numbers. *)
Definition all_titles : list str :=
  flat_map (fun t => flat_map (fun r => match row_title (snd (fst r)) (snd r) with Some x => [x] | None => [] end) (snd t)) link_tables.
(** The values that an attribute can have.  None depends on the messages, except for numbers
    that stand for objects. *)
Inductive attribute : string -> str -> Prop :=
| an_id v : Forall is_dec v -> attribute "id" v
| an_object v : Forall is_dec v -> attribute "data-ref-id" v
| a_reference v : Forall (fun c => is_dec c \/ c = 32%N) v -> attribute "data-ref-to" v
| a_class v : In v (map s ["exchange"; "message-display"; "message-remark"; "complaints"; "notice error"; "notice comment"; "notice debug"; "severity"; "ident";
                           "StatusCode"; "header-entry"; "body-display"; "trailer"]) -> attribute "class" v
| an_address v : In v (map cite_url all_cites) -> attribute "href" v
| a_title v : In v (map s ["error"; "comment"; "debug"] ++ all_titles) -> attribute "title" v.
Definition tags : list string := ["div"; "section"; "h2"; "h3"; "p"; "pre"; "code"; "span"; "a"; "cite"; "q"; "abbr"; "var"; "hr"].
(** A tree with only such elements and attributes. *)
Inductive tidy (text : str -> Prop) : html -> Prop :=
| tidy_text x : text x -> tidy text (Text x)
| tidy_elem tag attrs kids : In tag tags -> (forall k v, In (k, v) attrs -> attribute k v) -> (forall h, In h kids -> tidy text h) -> tidy text (Elem tag attrs kids).

(** ** Proofs *)
Section Tidy.
Variable text : str -> Prop.
Hypothesis clean_ok : forall x, clean x -> text x.
Notation tidy := (tidy text).
Definition tidy_all (l : list html) : Prop := forall h, In h l -> tidy h.
Lemma all_nil : tidy_all [].
Proof. intros h []. Qed.
Lemma all_cons h l : tidy h -> tidy_all l -> tidy_all (h :: l).
Proof. intros H L h' [<-|I]; [exact H|now apply L]. Qed.
Lemma all_app l k : tidy_all l -> tidy_all k -> tidy_all (l ++ k).
Proof. intros L K h I. apply in_app_or in I. destruct I; [now apply L|now apply K]. Qed.
Lemma all_flat {A} (f : A -> list html) l : (forall a, In a l -> tidy_all (f a)) -> tidy_all (flat_map f l).
Proof. intros H h I. apply in_flat_map in I. destruct I as [a [J I]]. exact (H a J h I). Qed.
Lemma all_map {A} (f : A -> html) l : (forall a, In a l -> tidy (f a)) -> tidy_all (map f l).
Proof. intros H h I. apply in_map_iff in I. destruct I as [a [<- J]]. now apply H. Qed.
Lemma all_all_of {A} (f : A -> option (list html)) l : (forall a k, In a l -> f a = Some k -> tidy_all k) -> forall k, all_of f l = Some k -> tidy_all k.
Proof.
  induction l as [|a l IH]; intros H k E; cbn [all_of] in E; [assert (k = []) by congruence; subst k; apply all_nil|].
  destruct (f a) as [x|] eqn:Fa; [|discriminate E]. destruct (all_of f l) as [y|]; [|discriminate E]. assert (k = x ++ y) by congruence. subst k.
  apply all_app; [exact (H a x (or_introl eq_refl) Fa)|]. apply IH; [intros b z I; apply H; now right|reflexivity].
Qed.
Lemma text_ok x : clean x -> tidy (Text x).
Proof. intro C. constructor. now apply clean_ok. Qed.
Lemma printable_ok x : tidy (Text (printable x)).
Proof. apply text_ok, printable_clean. Qed.
Lemma words_ok x : existsb unprintable x = false -> tidy (Text x).
Proof. intro H. apply text_ok. now apply clean_by. Qed.
Lemma elem_ok tag attrs kids : existsb (String.eqb tag) tags = true -> (forall k v, In (k, v) attrs -> attribute k v) -> tidy_all kids -> tidy (Elem tag attrs kids).
Proof. intros T A K. constructor; [|exact A|exact K]. apply existsb_exists in T. destruct T as [t [I E]]. apply String.eqb_eq in E. now subst t. Qed.
Lemma no_attrs k v : In (k, v) (@nil (string * str)) -> attribute k v.
Proof. intros []. Qed.
Lemma attrs_cons k0 v0 l : attribute k0 v0 -> (forall k v, In (k, v) l -> attribute k v) -> forall k v, In (k, v) ((k0, v0) :: l) -> attribute k v.
Proof. intros A L k v [E|I]; [injection E as <- <-; exact A|now apply L]. Qed.

(** *** Numbers *)
Lemma dec_ok n : Forall is_dec (dec_str n).
Proof. exact (proj1 (proj2 (dec_str_spec n))). Qed.
Lemma join_ok ids : Forall (fun c => is_dec c \/ c = 32%N) (join (s " ") (map dec_str ids)).
Proof.
  assert (D : forall n, Forall (fun c => is_dec c \/ c = 32%N) (dec_str n)) by (intro n; eapply Forall_impl; [|apply dec_ok]; intros c H; now left).
  induction ids as [|n ids IH]; cbn [map join]; [constructor|]. destruct ids as [|m ids]; [apply D|]. cbn [map] in IH |- *. apply Forall_app. split; [apply D|]. apply Forall_app. split; [repeat constructor; now right|exact IH].
Qed.
Lemma referring_ok ids k v : In (k, v) (referring_to ids) -> attribute k v.
Proof. intros [E|[]]. injection E as <- <-. apply a_reference, join_ok. Qed.

(** *** Names and numbers that are known *)
Lemma known_row_in cls x t c : known_row cls x = Some (t, c) -> exists tab r, In tab link_tables /\ In r (snd tab) /\ snd (fst r) = t /\ snd r = c.
Proof.
  unfold known_row. destruct (find (fun t => String.eqb (fst t) cls) link_tables) as [tab|] eqn:F; [|discriminate]. destruct (find _ (snd tab)) as [r|] eqn:R; [|discriminate].
  cbn [option_map]. intro H. apply find_some in F, R. exists tab, r. split; [apply F|]. split; [apply R|]. split; congruence.
Qed.
Lemma known_cite_in cls x c : known_citation cls x = Some c -> In c all_cites.
Proof.
  unfold known_citation. destruct (known_row cls x) as [[t c']|] eqn:R; [|discriminate]. intro H. subst c'. apply known_row_in in R. destruct R as (tab & r & I & J & _ & E).
  unfold all_cites. apply in_or_app. left. apply in_flat_map. exists tab. split; [exact I|]. apply in_flat_map. exists r. split; [exact J|]. rewrite E. now left.
Qed.
Lemma known_title_in cls x t : known_title_cited cls x = Some t -> In t all_titles.
Proof.
  unfold known_title_cited. destruct (known_row cls x) as [[t' c]|] eqn:R; [|discriminate]. intro H. apply known_row_in in R. destruct R as (tab & r & I & J & E1 & E2).
  unfold all_titles. apply in_flat_map. exists tab. split; [exact I|]. apply in_flat_map. exists r. split; [exact J|]. rewrite E1, E2, H. now left.
Qed.
Lemma known_ok cls x : tidy_all (render_known cls x).
Proof.
  unfold render_known. destruct (known_citation cls x) as [c|] eqn:C; [|apply all_cons; [apply printable_ok|apply all_nil]]. apply all_cons; [|apply all_nil].
  apply elem_ok; [reflexivity| |apply all_cons; [apply printable_ok|apply all_nil]]. apply attrs_cons; [apply an_address, in_map; exact (known_cite_in C)|].
  destruct (known_title_cited cls x) as [[|b t]|] eqn:T; [apply no_attrs| |apply no_attrs]. apply attrs_cons; [|apply no_attrs]. apply a_title, in_or_app. right. exact (known_title_in T).
Qed.
(** What is not a placeholder, or whose name is text that is allowed. *)
Fixpoint data_fine (d : data) : Prop :=
  match d with
  | DPlaceholder name => text name
  | DList l => (fix all (l : list data) : Prop := match l with [] => True | d :: l' => data_fine d /\ all l' end) l
  | _ => True
  end.
Lemma data_ok : forall d, data_fine d -> tidy_all (data_html d).
Proof.
  fix IH 1. intros [x|cls x|l|name] H; cbn [data_html].
  - apply all_cons; [apply printable_ok|apply all_nil].
  - apply known_ok.
  - cbn [data_fine] in H. induction l as [|d l IHl]; cbn [flat_map]; [apply all_nil|]. destruct H as [H1 H2]. apply all_app; [now apply IH|now apply IHl].
  - apply all_cons; [|apply all_nil]. apply elem_ok; [reflexivity|apply no_attrs|]. apply all_cons; [constructor; exact H|apply all_nil].
Qed.
Lemma titles_clean c t : In c all_cites -> cite_title c = Some t -> clean t.
Proof.
  assert (C : forallb (fun c => match cite_title c with Some t => negb (existsb unprintable t) | None => true end) all_cites = true) by (vm_compute; reflexivity).
  intros I H. rewrite forallb_forall in C. specialize (C c I). rewrite H in C. apply clean_by. now apply negb_true_iff.
Qed.
Lemma cite_ok c l : In c all_cites -> cite_html c = Some l -> tidy_all l.
Proof.
  intros I. unfold cite_html. destruct (cite_valid c); [|discriminate]. destruct (cite_title c) as [t|] eqn:T; [|discriminate]. intro H. match type of H with Some ?a = _ => assert (l = a) by congruence end. subst l.
  apply all_cons; [|apply all_nil]. apply elem_ok; [reflexivity|apply no_attrs|]. apply all_cons; [|apply all_nil]. apply elem_ok; [reflexivity|apply attrs_cons; [apply an_address, in_map, I|apply no_attrs]|].
  apply all_cons; [|apply all_nil]. apply text_ok. exact (titles_clean I T).
Qed.
Lemma grammar_in c : In c grammar_cites -> In c all_cites.
Proof. intro I. unfold all_cites. apply in_or_app. right. apply in_or_app. now right. Qed.
Lemma detail_ok d l : (forall name k, d = Sym name (Some k) -> In k grammar_cites) -> detail_html d = Some l -> tidy_all l.
Proof.
  destruct d as [x|name [c|]]; cbn [detail_html]; intros G H.
  - match type of H with Some ?a = _ => assert (l = a) by congruence end. subst l. apply all_cons; [apply printable_ok|apply all_nil].
  - destruct (cite_html c) as [k|] eqn:C; [|discriminate H]. match type of H with Some ?a = _ => assert (l = a) by congruence end. subst l.
    apply all_cons; [apply printable_ok|]. apply all_cons; [apply words_ok; reflexivity|]. apply all_app; [exact (cite_ok (grammar_in (G name c eq_refl)) C)|]. apply all_cons; [apply words_ok; reflexivity|apply all_nil].
  - match type of H with Some ?a = _ => assert (l = a) by congruence end. subst l. apply all_cons; [apply printable_ok|apply all_nil].
Qed.
Definition failure_fine (e : failure) : Prop := cites_grammar e /\ match e with FPlaceholder name => text name | _ => True end.
Lemma failure_ok e l : failure_fine e -> failure_html e = Some l -> tidy_all l.
Proof.
  intros [G F]. destruct e as [e|x|name]; cbn [failure_html]; intro H.
  - revert H. apply all_all_of. intros para k I H. destruct (all_of detail_html para) as [q|] eqn:Q; [|discriminate H]. cbn [option_map] in H. match type of H with Some ?a = _ => assert (k = a) by congruence end. subst k.
    apply all_cons; [|apply all_nil]. apply elem_ok; [reflexivity|apply no_attrs|]. revert Q. apply all_all_of. intros d k D. apply detail_ok. intros name c ->. exact (paragraph_symbols G I D).
  - match type of H with Some ?a = _ => assert (l = a) by congruence end. subst l. apply all_cons; [|apply all_nil]. apply elem_ok; [reflexivity|apply no_attrs|]. apply all_cons; [apply printable_ok|apply all_nil].
  - match type of H with Some ?a = _ => assert (l = a) by congruence end. subst l. apply all_cons; [|apply all_nil]. apply elem_ok; [reflexivity|apply no_attrs|]. apply all_cons; [|apply all_nil].
    apply elem_ok; [reflexivity|apply no_attrs|]. apply all_cons; [constructor; exact F|apply all_nil].
Qed.

(** *** Notices *)
Context {Ctx : Type}.
Variable resolve : Ctx -> list string -> option (list N * data).
Variable magic : Ctx -> string -> str -> option (list N).
Variable error_of : Ctx -> option failure.
Hypothesis resolve_fine : forall c path ids d, resolve c path = Some (ids, d) -> data_fine d.
Hypothesis error_fine : forall c e, error_of c = Some e -> failure_fine e.
Notation elem_html := (elem_html resolve magic).
Notation block_html := (block_html resolve magic error_of).
Notation notice_html := (notice_html resolve magic error_of).
Fixpoint elem_tidy c (e : elem) {struct e} : (forall k, In k (elem_cites e) -> In k all_cites) -> forall l, elem_html c e = Some l -> tidy_all l.
Proof.
  destruct e as [x|cls x refers|path|k quote]; cbn [Html.elem_html]; intros C l H.
  - match type of H with Some ?a = _ => assert (l = a) by congruence end. subst l. apply all_cons; [apply printable_ok|apply all_nil].
  - destruct (if refers then magic c cls x else Some []) as [ids|]; [|discriminate H]. cbn [option_map] in H. match type of H with Some ?a = _ => assert (l = a) by congruence end. subst l.
    apply all_cons; [|apply all_nil]. apply elem_ok; [reflexivity|apply referring_ok|apply known_ok].
  - destruct (resolve c path) as [[ids d]|] eqn:R; [|discriminate H]. match type of H with Some ?a = _ => assert (l = a) by congruence end. subst l.
    apply all_cons; [|apply all_nil]. apply elem_ok; [reflexivity|apply referring_ok|]. apply data_ok. exact (resolve_fine R).
  - destruct (cite_html k) as [a|] eqn:K; [|discriminate H]. pose proof (cite_ok (C k (or_introl eq_refl)) K) as A.
    assert (Q : forall q, all_of (elem_html c) quote = Some q -> tidy_all q).
    { cbn [elem_cites] in C. clear H. induction quote as [|e quote IH]; intros q E; cbn [all_of] in E; [assert (q = []) by congruence; subst q; apply all_nil|].
      destruct (elem_html c e) as [x|] eqn:X; [|discriminate E]. destruct (all_of (elem_html c) quote) as [y|]; [|discriminate E]. assert (q = x ++ y) by congruence. subst q. cbn [flat_map] in C.
      apply all_app; [apply (elem_tidy c e); [intros k' J; apply C; right; apply in_or_app; now left|exact X]|]. apply IH; [intros k' [<-|J]; apply C; [now left|right; apply in_or_app; now right]|reflexivity]. }
    destruct quote as [|e quote]; [assert (l = a) by congruence; subst l; exact A|]. destruct (all_of (elem_html c) (e :: quote)) as [q|] eqn:E; [|discriminate H].
    match type of H with Some ?a = _ => assert (l = a) by congruence end. subst l. apply all_app; [exact A|]. apply all_cons; [apply words_ok; reflexivity|]. apply all_cons; [|apply all_nil].
    apply elem_ok; [reflexivity|apply no_attrs|]. exact (Q q eq_refl).
Qed.
Lemma block_tidy c b l : (forall k, In k (block_cites b) -> In k all_cites) -> block_html c b = Some l -> tidy_all l.
Proof.
  destruct b as [es| |path]; cbn [Html.block_html]; intros C H.
  - destruct (all_of (elem_html c) es) as [k|] eqn:K; [|discriminate H]. cbn [option_map] in H. match type of H with Some ?a = _ => assert (l = a) by congruence end. subst l.
    apply all_cons; [|apply all_nil]. apply elem_ok; [reflexivity|apply no_attrs|]. revert K. apply all_all_of. intros e q I. apply elem_tidy. intros k' J. apply C. cbn [block_cites]. apply in_flat_map. eauto.
  - destruct (error_of c) as [e|] eqn:Er; [|discriminate H]. exact (failure_ok (error_fine Er) H).
  - destruct (resolve c path) as [[ids d]|]; [|discriminate H]. match type of H with Some ?a = _ => assert (l = a) by congruence end. subst l.
    apply all_cons; [|apply all_nil]. apply elem_ok; [reflexivity|apply referring_ok|]. apply all_cons; [apply words_ok; reflexivity|apply all_nil].
Qed.
Lemma notice_tidy anchor c l : notice_html anchor c = Some l -> tidy_all l.
Proof.
  unfold Html.notice_html. destruct (severity_of (fst c)) as [sv|]; [|discriminate]. destruct (template_of (fst c)) as [[title explanation]|] eqn:T; [|discriminate].
  destruct (all_of (elem_html (snd c)) title) as [t|] eqn:A; [|discriminate]. destruct (all_of (block_html (snd c)) explanation) as [b|] eqn:B; [|discriminate]. intro H.
  match type of H with Some ?a = _ => assert (l = a) by congruence end. subst l. clear H.
  assert (C : forall k, In k (flat_map elem_cites title ++ flat_map block_cites explanation) -> In k all_cites).
  { intros k I. unfold template_of in T. destruct (find _ templates) as [r|] eqn:F; [|discriminate T]. cbn [option_map] in T. apply find_some in F. destruct F as [F _].
    unfold all_cites. apply in_or_app. right. apply in_or_app. left. apply in_flat_map. exists r. split; [exact F|]. assert (E : snd r = (title, explanation)) by congruence. rewrite E. exact I. }
  apply all_cons; [|apply all_nil]. apply elem_ok; [reflexivity| |].
  - apply attrs_cons; [apply a_class; destruct sv; cbn [map In]; auto 20|]. destruct anchor; [|apply no_attrs]. apply attrs_cons; [apply an_id, dec_ok|apply no_attrs].
  - apply all_cons.
    + apply elem_ok; [reflexivity|apply no_attrs|]. apply all_cons.
      { apply elem_ok; [reflexivity| |apply all_cons; [apply words_ok; destruct sv; reflexivity|apply all_nil]].
        apply attrs_cons; [apply a_class; cbn [map In]; auto 20|]. apply attrs_cons; [|apply no_attrs]. apply a_title, in_or_app. left. destruct sv; cbn [map In severity_name]; auto. }
      apply all_cons; [apply elem_ok; [reflexivity|apply attrs_cons; [apply a_class; cbn [map In]; auto 20|apply no_attrs]|apply all_cons; [apply text_ok, dec_clean|apply all_nil]]|].
      apply all_cons; [|apply all_nil]. apply elem_ok; [reflexivity|apply no_attrs|]. revert A. apply all_all_of. intros e q I. apply elem_tidy. intros k J. apply C, in_or_app. left. apply in_flat_map. eauto.
    + revert B. apply all_all_of. intros e q I. apply block_tidy. intros k J. apply C, in_or_app. right. apply in_flat_map. eauto.
Qed.
Lemma complaints_tidy l k : render_complaints resolve magic error_of l = Some k -> tidy_all k.
Proof.
  unfold render_complaints. destruct l as [|c l]; intro H; [assert (k = []) by congruence; subst k; apply all_nil|]. destruct (all_of (notice_html false) (c :: l)) as [q|] eqn:Q; [|discriminate H].
  cbn [option_map] in H. match type of H with Some ?a = _ => assert (k = a) by congruence end. subst k. apply all_cons; [|apply all_nil].
  apply elem_ok; [reflexivity|apply attrs_cons; [apply a_class; cbn [map In]; auto 20|apply no_attrs]|]. revert Q. apply all_all_of. intros e q' _. apply notice_tidy.
Qed.

(** *** Messages *)
Variable message_of : nat -> option message.
Variable id_of : nat -> part -> N.
Variable visible : obj -> list (N * Ctx).
Variable request_of : nat -> option nat.
Variable responses_of : nat -> list nat.
(** The text that is displayed of a body, and the steps that led to it, are text that is allowed. *)
Definition message_fine (g : message) : Prop :=
  (forall x, g_body g = Shown x -> text x) /\ text (s "Body after " ++ nicely_join (g_transforms g)).
Hypothesis messages_fine : forall m g, message_of m = Some g -> message_fine g.
Lemma object_attrs m p l : (forall k v, In (k, v) l -> attribute k v) -> forall k v, In (k, v) (for_object id_of m p ++ l) -> attribute k v.
Proof. apply attrs_cons. apply an_object, dec_ok. Qed.
Lemma object_attr m p : forall k v, In (k, v) (for_object id_of m p) -> attribute k v.
Proof. apply attrs_cons; [apply an_object, dec_ok|apply no_attrs]. Qed.
Lemma chunk_tidy c : tidy_all (chunk_html c).
Proof. destruct c as [b|v]; cbn [chunk_html]; [apply all_cons; [apply printable_ok|apply all_nil]|]. destruct v; try (apply all_cons; [apply printable_ok|apply all_nil]). apply known_ok. Qed.
Lemma line_tidy m l : tidy (line_html id_of m l).
Proof.
  destruct l as [[p name] pieces]. cbn [line_html]. apply elem_ok; [reflexivity|apply object_attrs, attrs_cons; [apply a_class; cbn [map In]; auto 20|apply no_attrs]|]. apply all_cons; [|apply all_nil].
  apply elem_ok; [reflexivity|apply no_attrs|]. apply all_app; [apply known_ok|]. apply all_cons; [apply words_ok; reflexivity|]. apply all_flat. intros c _. apply chunk_tidy.
Qed.
Lemma body_tidy m g : message_fine g -> tidy_all (body_html id_of m (g_body g) (g_transforms g)).
Proof.
  intros [B T]. set (A := for_object id_of m PBody ++ [("class", s "body-display")]). assert (AO : forall k v, In (k, v) A -> attribute k v) by (apply object_attrs, attrs_cons; [apply a_class; cbn [map In]; auto 20|apply no_attrs]).
  assert (X : forall kids, tidy_all kids -> tidy_all [Elem "div" A kids]) by (intros kids K; apply all_cons; [apply elem_ok; [reflexivity|exact AO|exact K]|apply all_nil]).
  assert (Hd : forall x, text x -> tidy (Elem "h3" [] [Text x])) by (intros x K; apply elem_ok; [reflexivity|apply no_attrs|apply all_cons; [now constructor|apply all_nil]]).
  destruct (g_body g) as [| |x]; cbn [body_html].
  - apply X, all_cons; [apply Hd, clean_ok, clean_by; reflexivity|apply all_nil].
  - apply X, all_cons; [apply Hd, clean_ok, clean_by; reflexivity|apply all_nil].
  - destruct x as [|c x]; [apply all_nil|]. apply X. apply all_app.
    + destruct (g_transforms g) as [|t ts]; [apply all_nil|]. apply all_cons; [apply Hd, T|apply all_nil].
    + apply all_cons; [|apply all_nil]. apply elem_ok; [reflexivity|apply no_attrs|]. apply all_cons; [constructor; now apply B|apply all_nil].
Qed.
Lemma message_tidy m g : message_fine g -> tidy_all (message_html id_of m g).
Proof.
  intro F. unfold message_html. apply all_app; [apply all_map; intros; apply line_tidy|]. apply all_app; [now apply body_tidy|]. destruct (g_trailers g) as [|l ls]; [apply all_nil|].
  apply all_cons; [|apply all_nil]. apply elem_ok; [reflexivity|apply attrs_cons; [apply a_class; cbn [map In]; auto 20|apply no_attrs]|].
  apply all_cons; [apply elem_ok; [reflexivity|apply no_attrs|apply all_cons; [apply words_ok; reflexivity|apply all_nil]]|]. apply all_map. intros; apply line_tidy.
Qed.
Lemma version_tidy m g : tidy_all (version_html id_of m g).
Proof. unfold version_html. destruct (g_version g) as [[|c x]|]; try apply all_nil. apply all_cons; [|apply all_nil]. apply elem_ok; [reflexivity|apply object_attr|]. apply all_cons; [apply printable_ok|apply all_nil]. Qed.
Lemma start_tidy m g : tidy_all (start_html id_of m g).
Proof.
  unfold start_html. destruct (g_start g) as [method target|status reason].
  - apply all_cons; [apply elem_ok; [reflexivity|apply object_attr|apply known_ok]|]. apply all_cons; [apply elem_ok; [reflexivity|apply object_attr|apply all_cons; [apply printable_ok|apply all_nil]]|]. apply version_tidy.
  - apply all_app; [apply version_tidy|]. apply all_cons; [|apply all_nil]. apply elem_ok; [reflexivity|apply object_attrs, attrs_cons; [apply a_class; cbn [map In]; auto 20|apply no_attrs]|].
    apply all_app; [apply known_ok|]. apply all_cons; [|apply all_nil]. apply text_ok. apply clean_app; [apply clean_by; reflexivity|apply printable_clean].
Qed.
Notation section_html := (section_html resolve magic error_of message_of id_of visible).
Lemma section_tidy m l : section_html m = Some l -> tidy_all l.
Proof.
  unfold Html.section_html. destruct (message_of m) as [g|] eqn:G; [|discriminate]. destruct (render_complaints resolve magic error_of (visible (Msg m))) as [k|] eqn:K; [|discriminate]. intro H.
  match type of H with Some ?a = _ => assert (l = a) by congruence end. subst l. apply all_cons; [|apply all_nil]. apply elem_ok; [reflexivity|apply no_attrs|]. apply all_cons; [|exact (complaints_tidy K)].
  apply elem_ok; [reflexivity|apply attrs_cons; [apply a_class; cbn [map In]; auto 20|apply no_attrs]|]. apply all_app.
  - unfold remark_html. destruct (g_remark g) as [[|c x]|]; try apply all_nil. apply all_cons; [|apply all_nil]. apply elem_ok; [reflexivity|apply attrs_cons; [apply a_class; cbn [map In]; auto 20|apply no_attrs]|]. apply all_cons; [apply printable_ok|apply all_nil].
  - apply all_cons; [|exact (message_tidy (messages_fine G))]. apply elem_ok; [reflexivity|apply no_attrs|]. apply all_cons; [|apply all_nil]. apply elem_ok; [reflexivity|apply no_attrs|apply start_tidy].
Qed.
Lemma rule_tidy x l : (forall k, x = Some k -> tidy_all k) -> rule_after x = Some l -> tidy_all l.
Proof.
  destruct x as [k|]; cbn [rule_after option_map]; intros T H; [|discriminate H]. match type of H with Some ?a = _ => assert (l = a) by congruence end. subst l.
  apply all_app; [now apply T|]. apply all_cons; [|apply all_nil]. apply elem_ok; [reflexivity|apply no_attrs|apply all_nil].
Qed.
Lemma report_tidy es : tidy_all (fst (html_report resolve magic error_of message_of id_of visible request_of responses_of es)).
Proof.
  induction es as [|e es IH]; cbn [html_report]; [apply all_nil|].
  destruct (exchange_kids resolve magic error_of message_of id_of visible request_of responses_of e) as [k|] eqn:K; [|apply all_nil].
  destruct (html_report resolve magic error_of message_of id_of visible request_of responses_of es) as [out done]. cbn [fst] in *. destruct k as [|h k]; [exact IH|]. apply all_cons; [|exact IH].
  apply elem_ok; [reflexivity|apply attrs_cons; [apply a_class; cbn [map In]; auto 20|apply no_attrs]|]. unfold exchange_kids in K.
  destruct (match request_of e with Some q => rule_after (section_html q) | None => Some [] end) as [a|] eqn:A; [|discriminate K].
  destruct (all_of (fun p => rule_after (section_html p)) (responses_of e)) as [b|] eqn:B; [|discriminate K].
  destruct (match visible (Exch e) with [] => Some [] | l => rule_after (render_complaints resolve magic error_of l) end) as [c|] eqn:C; [|discriminate K].
  assert (Q : h :: k = a ++ b ++ c) by congruence. rewrite Q. apply all_app; [|apply all_app].
  - destruct (request_of e) as [q|]; [|assert (a = []) by congruence; subst a; apply all_nil]. revert A. apply rule_tidy. apply section_tidy.
  - revert B. apply all_all_of. intros p q _. apply rule_tidy. apply section_tidy.
  - destruct (visible (Exch e)) as [|v l]; [assert (c = []) by congruence; subst c; apply all_nil|]. revert C. apply rule_tidy. apply complaints_tidy.
Qed.
End Tidy.

(** ** Theorems *)

(** C74.  Whatever the messages and the notices are, the report consists of elements of a
    few kinds; the values of their attributes are numbers, or come with HTTPolice.  So text
    from messages is only in texts, which Dominate escapes. *)
Theorem C74_markup : forall (Ctx : Type) resolve magic error_of message_of id_of (visible : obj -> list (N * Ctx)) request_of responses_of es h,
  (forall c e, error_of c = Some e -> cites_grammar e) ->
  In h (fst (html_report resolve magic error_of message_of id_of visible request_of responses_of es)) -> tidy (fun _ => True) h.
Proof.
  intros Ctx resolve magic error_of message_of id_of visible request_of responses_of es h G. apply report_tidy.
  - auto.
  - intros c path ids d _. revert d. fix IH 1. intros [x|cls x|l|n]; cbn [data_fine]; auto. induction l as [|d l IHl]; [exact I|]. split; [apply IH|exact IHl].
  - intros c e E. split; [exact (G c e E)|]. destruct e; exact I.
  - intros m g _. split; auto.
Qed.
Print Assumptions C74_markup.

(** C74.  The addresses are of the web, and have no characters that could end the value of an
    attribute; neither have the titles. *)
Definition address_char (c : N) : Prop := ~ In c (s "<>""'` " ++ [38%N]) /\ (33 <= c <= 126)%N.
Theorem C74_addresses : forall c, In c all_cites -> (exists rest, cite_url c = s "https://" ++ rest \/ cite_url c = s "http://" ++ rest) /\ Forall address_char (cite_url c).
Proof.
  assert (C : forallb (fun c => (starts_with (cite_url c) (s "https://") || starts_with (cite_url c) (s "http://")) &&
    forallb (fun a => negb (existsb (N.eqb a) (s "<>""'` " ++ [38%N])) && (33 <=? a)%N && (a <=? 126)%N) (cite_url c)) all_cites = true) by (vm_compute; reflexivity).
  intros c I. rewrite forallb_forall in C. specialize (C c I). apply andb_true_iff in C. destruct C as [C1 C2]. split.
  - apply orb_true_iff in C1. destruct C1 as [C1|C1]; apply starts_with_spec in C1; destruct C1 as [r C1]; exists r; [now left|now right].
  - apply Forall_forall. intros a J. rewrite forallb_forall in C2. specialize (C2 a J). apply andb_true_iff in C2. destruct C2 as [C2 C4]. apply andb_true_iff in C2. destruct C2 as [C2 C3]. split; [|split; now apply N.leb_le].
    intro K. apply negb_true_iff in C2. assert (X : existsb (N.eqb a) (s "<>""'` " ++ [38%N]) = true); [|congruence]. apply existsb_exists. exists a. split; [exact K|apply N.eqb_refl].
Qed.
Print Assumptions C74_addresses.
Theorem C74_titles : forall t, In t all_titles -> forall c, In c t -> ~ In c (s "<>""'`" ++ [38%N]) /\ ~ forbidden c.
Proof.
  assert (C : forallb (forallb (fun a => negb (existsb (N.eqb a) (s "<>""'`" ++ [38%N])) && negb (unprintable a))) all_titles = true) by (vm_compute; reflexivity).
  intros t I c J. rewrite forallb_forall in C. specialize (C t I). rewrite forallb_forall in C. specialize (C c J). apply andb_true_iff in C. destruct C as [C1 C2]. split.
  - intro K. apply negb_true_iff in C1. assert (X : existsb (N.eqb c) (s "<>""'`" ++ [38%N]) = true); [|congruence]. apply existsb_exists. exists c. split; [exact K|apply N.eqb_refl].
  - rewrite <- unprintable_spec. apply negb_true_iff in C2. now rewrite C2.
Qed.
Print Assumptions C74_titles.

(** *** Characters *)

(** The steps that lead to the text of a body. *)
Inductive step_phrase (E : env) : str -> Prop :=
| sp_fixed x : In x [s "removing Transfer-Encoding"; s "removing Content-Encoding"; s "pretty-printing"; s "taking the first 1000 characters";
                     s "replacing non-printable characters with the " ++ [65533%N] ++ s " sign"] -> step_phrase E x
| sp_codec name c : e_codec E name = Fine c -> step_phrase E (s "decoding from " ++ c).
Lemma charset_codec E j c : snd (guessed_charset j E) = Ok (Some c) -> exists name, e_codec E name = Fine c.
Proof.
  unfold guessed_charset. intro H. apply bind_done in H. destruct H as [v [_ H]]. apply bind_done in H. destruct H as [name [_ H]]. apply bind_done in H. destruct H as [codec [K H]].
  unfold ask in K. cbn [snd] in K. assert (codec = e_codec E) by congruence. subst codec. clear K. exists name. destruct (e_codec E name) as [cs| |]; [|exact (ltac:(apply ret_done in H; discriminate H))|discriminate H].
  apply bind_done in H. destruct H as [b [_ H]]. destruct b as [|x| | | | | | | | | |]; try discriminate H; try (apply ret_done in H; congruence).
  apply bind_done in H. destruct H as [dec [_ H]]. destruct (dec cs x); [apply ret_done in H; congruence|apply ret_done in H; discriminate H|discriminate H].
Qed.
Section Steps.
Variable E : env.
Definition phrases (l : list str) : Prop := forall x, In x l -> step_phrase E x.
Lemma phrases_nil : phrases [].
Proof. intros x []. Qed.
Lemma phrases_app l k : phrases l -> phrases k -> phrases (l ++ k).
Proof. intros L K x I. apply in_app_or in I. destruct I; [now apply L|now apply K]. Qed.
Lemma phrases_one x : step_phrase E x -> phrases [x].
Proof. intros P y [<-|[]]. exact P. Qed.
Lemma clip_phrases r l v steps : phrases l -> clip r l = (v, steps) -> phrases steps.
Proof.
  intros P H. unfold clip in H.
  assert (Q : forall r' l', phrases l' -> (if str_eqb r' (printable r') then (VStr r', l') else (VStr (printable r'), l' ++ [s "replacing non-printable characters with the " ++ [65533%N] ++ s " sign"])) = (v, steps) -> phrases steps).
  { intros r' l' P' H'. destruct (str_eqb r' (printable r')).
    - assert (l' = steps) by congruence. now subst l'.
    - match type of H' with (_, ?a) = _ => assert (a = steps) by congruence end. subst steps. apply phrases_app; [exact P'|]. apply phrases_one, sp_fixed. do 4 right. now left. }
  destruct (Nat.ltb limit (List.length r)); cbv zeta in H; revert H; apply Q; [|exact P]. apply phrases_app; [exact P|]. apply phrases_one, sp_fixed. do 3 right. now left.
Qed.
Lemma displayed_steps j v steps : snd (displayable_body j E) = Ok (v, steps) -> phrases steps.
Proof.
  unfold displayable_body. intro H. apply bind_done in H. destruct H as [te [_ H]]. apply bind_done in H. destruct H as [ce [_ H]]. apply bind_done in H. destruct H as [cs [C H]].
  cbv zeta in H. apply bind_done in H. destruct H as [json [_ H]].
  assert (T : phrases (if te then [s "removing Transfer-Encoding"] else [])) by (destruct te; [apply phrases_one, sp_fixed; now left|apply phrases_nil]).
  assert (Ce : phrases (if ce then [s "removing Content-Encoding"] else [])) by (destruct ce; [apply phrases_one, sp_fixed; right; now left|apply phrases_nil]).
  assert (D : phrases (match cs with Some (x :: c) => if str_eqb (x :: c) (s "utf-8") then [] else [s "decoding from " ++ x :: c] | _ => [] end)).
  { destruct cs as [[|x c]|]; try apply phrases_nil. destruct (str_eqb (x :: c) (s "utf-8")); [apply phrases_nil|]. destruct (charset_codec C) as [name K]. apply phrases_one. exact (sp_codec K). }
  revert T Ce D H. set (tes := if te then _ else _). set (ces := if ce then _ else _). set (dec := match cs with Some _ => _ | None => _ end). intros T Ce D H.
  assert (U : snd ((u <- unicode_body j ;;
      if okay_value u then match u with VStr r => ret (clip r (tes ++ ces ++ dec)) | _ => raise Mistake end
      else
        b <- decoded_body j ;;
        replace <- ask e_replace ;;
        if okay_value b then match b with VBytes x => ret (clip (replace x) (tes ++ ces)) | _ => raise Mistake end
        else match m_body (j_msg j) with VBytes x => ret (clip (replace x) tes) | VNone | VUnavailable _ => ret (m_body (j_msg j), []) | _ => raise Mistake end) E) = Ok (v, steps) -> phrases steps).
  { clear H. intro H. apply bind_done in H. destruct H as [u [_ H]]. destruct (okay_value u).
    - destruct u; try discriminate H. apply ret_done in H. revert H. apply clip_phrases. now repeat apply phrases_app.
    - apply bind_done in H. destruct H as [b [_ H]]. apply bind_done in H. destruct H as [rep [_ H]]. destruct (okay_value b).
      + destruct b; try discriminate H. apply ret_done in H. revert H. apply clip_phrases. now apply phrases_app.
      + destruct (m_body (j_msg j)); try discriminate H; apply ret_done in H; [revert H; now apply clip_phrases|assert (steps = []) by congruence; subst steps; apply phrases_nil|assert (steps = []) by congruence; subst steps; apply phrases_nil]. }
  destruct json as [| |d]; try (exact (U H)). apply bind_done in H. destruct H as [r [_ H]]. apply ret_done in H. revert H. apply clip_phrases. repeat apply phrases_app; try assumption. apply phrases_one, sp_fixed. right. right. now left.
Qed.
End Steps.
Lemma joined_clean l : (forall x, In x l -> clean x) -> clean (nicely_join l).
Proof.
  unfold nicely_join. generalize (List.length l) as n, 0 as i. induction l as [|x l IH]; intros n i H; cbn [nicely_join_from]; [now intro|].
  apply clean_app; [|apply clean_app; [apply H; now left|apply clean_app; [|apply IH; intros; apply H; now right]]].
  - destruct (Nat.eqb i (n - 1)); [|now intro]. destruct (Nat.ltb 2 n); [|destruct (Nat.ltb 1 n); [|now intro]]; apply clean_by; reflexivity.
  - destruct (Nat.ltb 2 n && Nat.ltb i (n - 1)); [apply clean_by; reflexivity|now intro].
Qed.
Lemma data_of_val_fine other text : forall v, data_fine text (data_of_val other v).
Proof.
  fix IH 1. intro v. destruct v as [x| | | | | | |l|l|cls l|u|]; cbn [data_of_val data_fine]; try exact I.
  - induction l as [|v l IHl]; cbn [map]; [exact I|]. split; [apply IH|exact IHl].
  - destruct l as [|v l]; [exact I|]. pose proof (IH v) as V. destruct v as [x| | | | | | |k|k|c k|u|]; try (destruct (str_eqb cls (s "Parametrized")); [exact V|exact I]).
    destruct l as [|w l]; [destruct (is_known_class cls); exact I|destruct (str_eqb cls (s "Parametrized")); [exact V|exact I]].
Qed.
Lemma entry_data_fine x other w p text : data_fine text (entry_data x other w p).
Proof. unfold entry_data. destruct (subject_at x w); [|exact I]. destruct (nth_error _ _); exact I. Qed.
Lemma list_data_fine {A} text (f : A -> data) l : (forall a, data_fine text (f a)) -> data_fine text (DList (map f l)).
Proof. intro H. cbn [data_fine]. induction l as [|a l IH]; cbn [map]; [exact I|]. split; [apply H|exact IH]. Qed.
Lemma node_data_fine x other n text : data_fine text (node_data x other n).
Proof.
  destruct n as [| | |v|a|]; cbn [node_data]; try exact I; [apply data_of_val_fine|]. destruct a; try exact I; [apply entry_data_fine|apply list_data_fine; intro; apply entry_data_fine|apply list_data_fine; intro; exact I].
Qed.
Lemma datum_fine x other path n text : data_fine text (datum x other path n).
Proof. unfold datum. destruct n as [| | |v|a|]; try apply node_data_fine. destruct v; try apply node_data_fine. destruct (is_status path); [exact I|apply node_data_fine]. Qed.
Lemma text_clean : forall h, tidy clean h -> clean (text_of h).
Proof.
  fix IH 1. intros [x|tag attrs kids] T; cbn [text_of].
  - inversion T. assumption.
  - assert (K : forall h, In h kids -> tidy clean h) by (inversion T; assumption). clear T. induction kids as [|h kids IHk]; cbn [flat_map]; [now intro|]. apply clean_app; [apply IH, K; now left|apply IHk; intros; apply K; now right].
Qed.
(** C74.  In the report about exchanges that were checked, no text has forbidden characters;
    the names of codecs are taken to have none. *)
Theorem C74_characters : forall E exchange_at other id_of failed remark_of read visible es h c,
  (forall name codec a, e_codec E name = Fine codec -> In a codec -> ~ forbidden a) ->
  (forall e k, cites_grammar (failed e k) /\ forall name, failed e k <> FPlaceholder name) ->
  In h (fst (report_html E exchange_at other id_of failed remark_of read visible es)) -> In c (text_of h) -> ~ forbidden c.
Proof.
  intros E exchange_at other id_of failed remark_of read visible es h c N G I J.
  assert (T : tidy clean h).
  { revert h I J. intros h I _. revert h I. unfold report_html. apply report_tidy.
    - auto.
    - intros k path ids d R. unfold resolve_in, resolve_html in R. destruct (resolve_reference _ _ _ _ _) as [n|]; [|discriminate R].
      destruct (match part_at _ _ _ _ with Some _ => _ | None => _ end) as [i|]; [|discriminate R]. match type of R with Some (_, ?b) = _ => assert (d = b) by congruence end. subst d. apply datum_fine.
    - intros k e R. unfold error_in, error_html in R. destruct (find _ _); [|discriminate R]. assert (X : failed (fst k) (snd k) = e) by congruence. destruct (G (fst k) (snd k)) as [G1 G2]. rewrite X in G1, G2.
      split; [exact G1|]. destruct e as [| |name]; try exact Logic.I. destruct (G2 name eq_refl).
    - intros m g R. unfold message_in in R. destruct (message_place m) as [e w]. unfold message_data in R. destruct (subject_at _ w) as [j|]; [|discriminate R]. destruct (start_of _ w) as [st|]; [|discriminate R].
      destruct (snd (displayable_body j E)) as [[v steps]|] eqn:D; [|discriminate R]. match type of R with Some ?b = _ => assert (g = b) by congruence end. subst g. clear R. split; cbn [g_body g_transforms].
      + intros x X. destruct v; try discriminate X. assert (x0 = x) by congruence. subst x0. destruct (C47_displayed D) as [[_ [[Q|[y Q]] _]]|(t & r & _ & Q & _ & _ & F & _)]; try discriminate Q.
        assert (x = r) by congruence. subst r. intros a A. apply not_true_iff_false. rewrite unprintable_spec. now apply F.
      + apply clean_app; [apply clean_by; reflexivity|]. apply joined_clean. intros x X. destruct (displayed_steps D X) as [x In5|name k K].
        * cbn [In] in In5. repeat (destruct In5 as [<-|In5]; [apply clean_by; reflexivity|]). destruct In5.
        * apply clean_app; [apply clean_by; reflexivity|]. intros a A. apply not_true_iff_false. rewrite unprintable_spec. exact (N name k a K A). }
  rewrite <- unprintable_spec. rewrite (text_clean T J). discriminate.
Qed.
Print Assumptions C74_characters.

(** A request whose target and header look like markup. *)
Definition tricky_request : request := Request (Message (Some (s "HTTP/1.1")) (headers_of [("X-Foo", "<b onclick=alert(1)>&amp;")]) (VBytes []) None None) (Some (s "http")) (s "GET") (s "/""><script>").
Definition tricky_exchange : exchange := Exchange (Some tricky_request) [].
Definition tricky_report : list html * bool :=
  report_html html_env (fun _ => tricky_exchange) (fun _ => s "?") (fun _ _ => 7%N) (fun _ _ => FOther (s "<p>")) (fun _ _ => None) (fun _ _ => None) (fun _ => []) [0].
Example C74_example : snd tricky_report = true /\ map text_of (fst tricky_report) = [s "GET/""><script>HTTP/1.1X-Foo: <b onclick=alert(1)>&amp;"] /\
  (forall h, In h (fst tricky_report) -> tidy (fun _ => True) h).
Proof.
  split; [vm_compute; reflexivity|]. split; [vm_compute; reflexivity|]. intros h. unfold tricky_report, report_html. apply C74_markup. intros c e H. unfold error_in, error_html in H.
  destruct (find _ _); [|discriminate H]. assert (e = FOther (s "<p>")) by congruence. subst e. exact I.
Qed.

(** ** The list of all notices *)
Lemma insert_in n l m : In m (insert_id n l) <-> m = n \/ In m l.
Proof.
  induction l as [|a l IH]; cbn [insert_id]; [cbn [In]; intuition|]. destruct (N.leb n a); [cbn [In]; intuition|]. cbn [In]. rewrite IH. intuition.
Qed.
(** C75.  [list_notices] is written to the end; it has exactly one element for each notice of
    the catalogue, in the order of their ids, with its severity, its id, and an anchor that is
    its id. *)
Definition anchored (id : N) (h : html) : Prop := match h with Elem _ attrs _ => In ("id", dec_str id) attrs | Text _ => False end.
Theorem C75_list_notices : forall fresh, exists ids l, list_notices fresh = Some l /\
  Sorted.StronglySorted N.lt ids /\ (forall id, In id ids <-> exists sv, severe id sv) /\
  Forall2 (fun id h => stands_for (id, tt) h /\ anchored id h) ids l.
Proof.
  intro fresh. exists sorted_ids.
  assert (Q : forall ids, (forall id, In id ids -> exists n, In n catalogue /\ c_id n = id) -> exists l,
    all_of (fun id => notice_html (fun (_ : unit) path => Some ([fresh path], DPlaceholder (s (last path "")))) (fun _ _ _ => Some []) (fun _ => Some (FPlaceholder (s "error"))) true (id, tt)) ids = Some l /\
    Forall2 (fun id h => stands_for (id, tt) h /\ anchored id h) ids l).
  { induction ids as [|id ids IH]; intro H; [exists []; split; [reflexivity|constructor]|]. destruct IH as (l & L & F); [intros; apply H; now right|]. cbn [all_of]. rewrite L.
    destruct (H id (or_introl eq_refl)) as (n & I & <-). destruct (template_complete I) as (title & explanation & T & P & K & Ex).
    assert (SV : exists sv, severity_of (c_id n) = Some sv).
    { unfold severity_of. destruct (find (fun n0 => (c_id n0 =? c_id n)%N) catalogue) as [n'|] eqn:Fd; [cbn [option_map]; eauto|]. exfalso. pose proof (find_none _ _ Fd n I) as Q. cbv beta in Q. rewrite N.eqb_refl in Q. discriminate Q. }
    destruct SV as [sv SV].
    destruct (@notice_shown unit (fun _ path => Some ([fresh path], DPlaceholder (s (last path "")))) (fun _ _ _ => Some []) (fun _ => Some (FPlaceholder (s "error"))) tt
      (fun _ _ => ex_intro _ [] eq_refl) true (c_id n) title explanation sv SV T (fun path _ => ex_intro _ _ eq_refl) K) as [k N].
    { intros _. exists (FPlaceholder (s "error")). eexists. split; reflexivity. }
    rewrite N. destruct (notice_shape N) as (h & -> & S & _). exists (h :: l). split; [reflexivity|]. constructor; [|exact F]. split; [exact S|].
    unfold notice_html in N. cbn [fst snd] in N. rewrite SV, T in N. destruct (all_of _ title); [|discriminate N]. destruct (all_of _ explanation); [|discriminate N].
    match type of N with Some [?a] = _ => assert (h = a) by congruence end. subst h. cbn [anchored]. right. now left. }
  assert (J : forall id, In id sorted_ids <-> exists n, In n catalogue /\ c_id n = id).
  { intro id. unfold sorted_ids. generalize catalogue as l. induction l as [|n l IH]; cbn [map fold_right]; [split; [intros []|intros (n & [] & _)]|]. rewrite insert_in, IH. split.
    - intros [->|(m & I & <-)]; [exists n; split; [now left|reflexivity]|exists m; split; [now right|reflexivity]].
    - intros (m & [<-|I] & <-); [now left|right; eauto]. }
  destruct (Q sorted_ids (fun id H => proj1 (J id) H)) as (l & L & F). exists l. split; [unfold list_notices; exact L|]. split; [|split; [|exact F]].
  - assert (C : (fix up (l : list N) : bool := match l with a :: ((b :: _) as l') => (a <? b)%N && up l' | _ => true end) sorted_ids = true) by (vm_compute; reflexivity).
    apply Sorted.Sorted_StronglySorted; [intros a b c; apply N.lt_trans|]. revert C. generalize sorted_ids as k. induction k as [|a k IHk]; intro C; constructor.
    + apply IHk. destruct k; [reflexivity|]. apply andb_true_iff in C. apply C.
    + destruct k; constructor. apply andb_true_iff in C. apply N.ltb_lt, C.
  - intro id. rewrite J. split; [intros (n & I & E); exists (c_severity n); now exists n|]. intros [sv [n I E S]]. eauto.
Qed.
Print Assumptions C75_list_notices.
