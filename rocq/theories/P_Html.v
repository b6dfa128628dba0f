(** C73, C74, C75: what the HTML report says. *)
From Coq Require Import ZifyBool ZifyNat ZifyN String.
From Verif Require Import Base Grammar Parse Text P_Util Actions Structure Known Tables Header Citation Links Templates Catalogue Titles Blackboard Annotated TextReport P_Reports Html.
Open Scope nat_scope.
Open Scope list_scope.
Unset Strict Implicit.
Local Open Scope string_scope.
Local Open Scope list_scope.

(** ** Specification: how a person, or a program, reads the report *)

(** The text in an element. *)
Fixpoint text_of (h : html) : str :=
  match h with
  | Text x => x
  | Elem _ _ kids => flat_map text_of kids
  end.
(** The classes of an element are the words of its attribute [class]. *)
Fixpoint words_from (cur x : str) : list str :=
  match x with
  | [] => [cur]
  | c :: x' => if (c =? 32)%N then cur :: words_from [] x' else words_from (cur ++ [c]) x'
  end.
Definition classes (attrs : list (string * str)) : list str :=
  flat_map (fun a => if String.eqb (fst a) "class" then words_from [] (snd a) else []) attrs.
Definition has_class (k : string) (h : html) : bool := match h with Text _ => false | Elem _ attrs _ => existsb (str_eqb (s k)) (classes attrs) end.
(** The elements of a class, wherever they are, in the order in which they begin. *)
Fixpoint found (k : string) (h : html) : list html :=
  (if has_class k h then [h] else []) ++ match h with Text _ => [] | Elem _ _ kids => flat_map (found k) kids end.
Definition is_section (h : html) : bool := match h with Elem tag _ _ => String.eqb tag "section" | Text _ => false end.
Definition kids_of (h : html) : list html := match h with Elem _ _ kids => kids | Text _ => [] end.
Definition severities : list severity := [Debug; Comment; Error].
(** A notice is shown by an element of the classes [notice] and, of those for severities, the one for
    its severity; in it the id is in an element of the class [ident]. *)
Definition stands_for {Ctx} (c : N * Ctx) (h : html) : Prop :=
  has_class "notice" h = true /\
  (forall sv, has_class (severity_name sv) h = true <-> severe (fst c) sv) /\
  map text_of (found "ident" h) = [dec_str (fst c)].

Section Report.
Context {Ctx : Type}.
Variable resolve : Ctx -> list string -> option (list N * data).
Variable magic : Ctx -> string -> str -> option (list N).
Variable error_of : Ctx -> option failure.
Variable message_of : nat -> option message.
Variable id_of : nat -> part -> N.
Variable visible : obj -> list (N * Ctx).
Variable request_of : nat -> option nat.
Variable responses_of : nat -> list nat.
Notation html_report := (html_report resolve magic error_of message_of id_of visible request_of responses_of).
Notation notice_html := (notice_html resolve magic error_of).
Notation elem_html := (elem_html resolve magic).
Notation block_html := (block_html resolve magic error_of).

(** The messages of an exchange, in order. *)
Definition messages_of (e : nat) : list nat := match request_of e with Some q => [q] | None => [] end ++ responses_of e.
(** An exchange without messages and visible notices. *)
Definition nothing (e : nat) : Prop := messages_of e = [] /\ visible (Exch e) = [].
(** What is written about an exchange: a [section] for each message, with its notices, and
    then the notices on the exchange. *)
Definition box_of (e : nat) (h : html) : Prop :=
  has_class "exchange" h = true /\
  Forall2 (fun m sec => Forall2 stands_for (visible (Msg m)) (found "notice" sec)) (messages_of e) (filter is_section (kids_of h)) /\
  Forall2 stands_for (visible (Exch e)) (flat_map (found "notice") (filter (fun k => negb (is_section k)) (kids_of h))) /\
  found "notice" h = flat_map (found "notice") (kids_of h).
Inductive boxes : list nat -> list html -> Prop :=
| no_boxes : boxes [] []
| no_box e es hs : nothing e -> boxes es hs -> boxes (e :: es) hs
| a_box e es h hs : ~ nothing e -> box_of e h -> boxes es hs -> boxes (e :: es) (h :: hs).

(** ** Proofs *)

(** *** Elements without classes *)
Lemma found_elem k tag attrs kids : found k (Elem tag attrs kids) = (if existsb (str_eqb (s k)) (classes attrs) then [Elem tag attrs kids] else []) ++ flat_map (found k) kids.
Proof. reflexivity. Qed.
Lemma classes_cons v l : classes (("class", v) :: l) = words_from [] v ++ classes l.
Proof. reflexivity. Qed.
Lemma flat_map_cons {A B} (f : A -> list B) a l : flat_map f (a :: l) = f a ++ flat_map f l.
Proof. reflexivity. Qed.
Fixpoint classless (h : html) : bool :=
  match h with
  | Text _ => true
  | Elem _ attrs kids => forallb (fun a => negb (String.eqb (fst a) "class")) attrs && forallb classless kids
  end.
Lemma classes_none attrs : forallb (fun a => negb (String.eqb (@fst string str a) "class")) attrs = true -> classes attrs = [].
Proof. unfold classes. induction attrs as [|a l IH]; intro H; [reflexivity|]. cbn [forallb] in H. apply andb_true_iff in H. destruct H as [A B]. cbn [flat_map]. apply negb_true_iff in A. rewrite A. cbn [app]. now apply IH. Qed.
Lemma classless_found k : forall h, classless h = true -> found k h = [].
Proof.
  fix IH 1. intros [x|tag attrs kids] H; [reflexivity|]. cbn [classless] in H. apply andb_true_iff in H. destruct H as [A B]. cbn [found has_class]. rewrite (classes_none A). cbn [existsb app].
  induction kids as [|h l IHl]; [reflexivity|]. cbn [forallb] in B. apply andb_true_iff in B. destruct B as [B1 B2]. cbn [flat_map]. rewrite (IH h B1). cbn [app]. apply IHl, B2.
Qed.
Lemma classless_all k l : forallb classless l = true -> flat_map (found k) l = [].
Proof. induction l as [|h l IH]; intro H; [reflexivity|]. cbn [forallb] in H. apply andb_true_iff in H. destruct H as [A B]. cbn [flat_map]. rewrite (classless_found k A). now apply IH. Qed.
Lemma render_known_classless cls x : forallb classless (render_known cls x) = true.
Proof. unfold render_known. destruct (known_citation cls x); [|reflexivity]. destruct (known_title_cited cls x) as [[|]|]; reflexivity. Qed.
Lemma data_classless : forall d, forallb classless (data_html d) = true.
Proof.
  fix IH 1. intros [x|cls x|l|n]; cbn [data_html]; [reflexivity|apply render_known_classless| |reflexivity].
  induction l as [|d l IHl]; [reflexivity|]. cbn [flat_map]. rewrite forallb_app, (IH d). exact IHl.
Qed.
Lemma all_of_forall {A B} (f : A -> option (list B)) (P : B -> bool) : (forall a l, f a = Some l -> forallb P l = true) -> forall l k, all_of f l = Some k -> forallb P k = true.
Proof.
  intros H l. induction l as [|a l IH]; intros k E; cbn [all_of] in E; [assert (k = []) by congruence; subst k; reflexivity|].
  destruct (f a) as [x|] eqn:F; [|discriminate E]. destruct (all_of f l) as [y|]; [|discriminate E]. assert (k = x ++ y) by congruence. subst k. rewrite forallb_app, (H a x F). now apply IH.
Qed.
Lemma cite_classless c l : cite_html c = Some l -> forallb classless l = true.
Proof. unfold cite_html. destruct (cite_valid c); [|discriminate]. destruct (cite_title c); [|discriminate]. intro H. match type of H with Some ?a = _ => assert (l = a) by congruence end. subst l. reflexivity. Qed.
Lemma detail_classless d l : detail_html d = Some l -> forallb classless l = true.
Proof.
  destruct d as [x|n [c|]]; cbn [detail_html]; intro H; [assert (l = [Text (printable x)]) by congruence; subst l; reflexivity| |assert (l = [Text (printable n)]) by congruence; subst l; reflexivity].
  destruct (cite_html c) as [k|] eqn:C; [|discriminate H]. match type of H with Some ?a = _ => assert (l = a) by congruence end. subst l. cbn [forallb classless andb]. rewrite forallb_app, (cite_classless C). reflexivity.
Qed.
Lemma failure_classless e l : failure_html e = Some l -> forallb classless l = true.
Proof.
  destruct e as [e|x|n]; cbn [failure_html]; intro H; [|match type of H with Some ?a = _ => assert (l = a) by congruence end; subst l; reflexivity..].
  revert H. apply all_of_forall. intros para k E. destruct (all_of detail_html para) as [q|] eqn:Q; [|discriminate E]. cbn [option_map] in E. assert (k = [Elem "p" [] q]) by congruence. subst k.
  cbn [forallb classless andb]. rewrite (all_of_forall detail_classless Q). reflexivity.
Qed.
Fixpoint elem_classless ctx (e : elem) {struct e} : forall l, elem_html ctx e = Some l -> forallb classless l = true.
Proof.
  destruct e as [x|cls x refers|path|c quote]; cbn [Html.elem_html]; intros l H.
  - assert (l = [Text (printable x)]) by congruence. subst l. reflexivity.
  - destruct (if refers then magic ctx cls x else Some []) as [ids|]; [|discriminate H]. cbn [option_map] in H.
    match type of H with Some ?a = _ => assert (l = a) by congruence end. subst l. cbn [forallb classless referring_to fst]. rewrite render_known_classless. reflexivity.
  - destruct (resolve ctx path) as [[ids d]|]; [|discriminate H]. match type of H with Some ?a = _ => assert (l = a) by congruence end. subst l. cbn [forallb classless referring_to fst]. rewrite data_classless. reflexivity.
  - destruct (cite_html c) as [k|] eqn:C; [|discriminate H].
    assert (Q : forall q, all_of (elem_html ctx) quote = Some q -> forallb classless q = true).
    { clear H. induction quote as [|e quote IH]; intros q E; cbn [all_of] in E; [assert (q = []) by congruence; subst q; reflexivity|].
      destruct (elem_html ctx e) as [x|] eqn:X; [|discriminate E]. destruct (all_of (elem_html ctx) quote) as [y|]; [|discriminate E]. assert (q = x ++ y) by congruence. subst q.
      rewrite forallb_app, (elem_classless ctx e x X). now apply IH. }
    destruct quote as [|e quote]; [assert (l = k) by congruence; subst l; exact (cite_classless C)|]. destruct (all_of (elem_html ctx) (e :: quote)) as [q|] eqn:E; [|discriminate H].
    match type of H with Some ?a = _ => assert (l = a) by congruence end. subst l. rewrite forallb_app, (cite_classless C). cbn [forallb classless andb]. rewrite (Q q eq_refl). reflexivity.
Qed.
Lemma block_classless ctx b l : block_html ctx b = Some l -> forallb classless l = true.
Proof.
  destruct b as [es| |path]; cbn [Html.block_html]; intro H.
  - destruct (all_of (elem_html ctx) es) as [k|] eqn:K; [|discriminate H]. cbn [option_map] in H. assert (l = [Elem "p" [] k]) by congruence. subst l. cbn [forallb classless andb].
    rewrite (all_of_forall (@elem_classless ctx) K). reflexivity.
  - destruct (error_of ctx) as [e|]; [|discriminate H]. exact (failure_classless H).
  - destruct (resolve ctx path) as [[ids d]|]; [|discriminate H]. match type of H with Some ?a = _ => assert (l = a) by congruence end. subst l. reflexivity.
Qed.

(** *** Notices *)
Lemma severe_fun id sv sv' : severe id sv -> severe id sv' -> sv = sv'.
Proof.
  intros [n I E S] [n' I' E' S']. assert (C : forallb (fun n => forallb (fun n' => negb (N.eqb (c_id n) (c_id n')) || (severity_rank (c_severity n) =? severity_rank (c_severity n'))%nat) catalogue) catalogue = true) by (vm_compute; reflexivity).
  rewrite forallb_forall in C. specialize (C n I). rewrite forallb_forall in C. specialize (C n' I'). rewrite E, E', N.eqb_refl in C. cbn [negb orb] in C. rewrite S, S' in C. apply Nat.eqb_eq in C. destruct sv, sv'; try reflexivity; discriminate C.
Qed.
Lemma notice_shape anchor c l : notice_html anchor c = Some l -> exists h, l = [h] /\ stands_for c h /\ found "notice" h = [h].
Proof.
  unfold Html.notice_html. destruct (severity_of (fst c)) as [sv|] eqn:SV; [|discriminate]. destruct (template_of (fst c)) as [[title explanation]|]; [|discriminate].
  destruct (all_of (elem_html (snd c)) title) as [t|] eqn:T; [|discriminate]. destruct (all_of (block_html (snd c)) explanation) as [b|] eqn:B; [|discriminate]. intro H.
  match type of H with Some [?a] = _ => exists a; split; [congruence|] end. clear H l.
  pose proof (all_of_forall (@elem_classless (snd c)) T) as CT. pose proof (all_of_forall (@block_classless (snd c)) B) as CB.
  assert (An : forall v, classes (("class", v) :: (if anchor then [("id", dec_str (fst c))] else [])) = words_from [] v) by (intro v; rewrite classes_cons; destruct anchor; apply app_nil_r).
  assert (Sv : severe (fst c) sv) by (exact (find_severe SV)).
  split; [|].
  - split; [|split].
    + cbn [has_class]. rewrite classes_cons, existsb_app. apply orb_true_iff. left. destruct sv; reflexivity.
    + intro sv'. cbn [has_class]. rewrite An.
      split; [|intro S'; rewrite (severe_fun S' Sv); destruct sv; reflexivity]. intro H. destruct sv, sv'; try exact Sv; discriminate H.
    + rewrite found_elem, flat_map_cons. rewrite (classless_all "ident" CB), app_nil_r. rewrite !found_elem. cbn [flat_map]. rewrite !found_elem, (classless_all "ident" CT).
      rewrite An.
      replace (existsb (str_eqb (s "ident")) (words_from [] (s "notice " ++ s (severity_name sv)))) with false by (destruct sv; reflexivity). cbn [app map text_of flat_map classes existsb found fst snd].
      change (map text_of [Elem "span" [("class", s "ident")] [Text (dec_str (fst c))]] = [dec_str (fst c)]). cbn [map text_of flat_map]. now rewrite app_nil_r.
  - rewrite found_elem, flat_map_cons. rewrite (classless_all "notice" CB), app_nil_r. rewrite !found_elem. cbn [flat_map]. rewrite !found_elem, (classless_all "notice" CT).
    rewrite An.
    replace (existsb (str_eqb (s "notice")) (words_from [] (s "notice " ++ s (severity_name sv)))) with true by (destruct sv; reflexivity).
    destruct sv; reflexivity.
Qed.
Lemma notices_shape anchor l : forall k, all_of (notice_html anchor) l = Some k -> Forall2 stands_for l (flat_map (found "notice") k) /\ forallb (fun h => negb (is_section h)) k = true.
Proof.
  induction l as [|c l IH]; intros k H; cbn [all_of] in H; [assert (k = []) by congruence; subst k; split; [constructor|reflexivity]|].
  destruct (notice_html anchor c) as [x|] eqn:X; [|discriminate H]. destruct (all_of (notice_html anchor) l) as [y|]; [|discriminate H]. assert (k = x ++ y) by congruence. subst k.
  destruct (notice_shape X) as (h & -> & S & F). destruct (IH y eq_refl) as [A B]. cbn [app flat_map forallb]. rewrite F. split; [now constructor|].
  apply andb_true_iff. split; [|exact B]. unfold Html.notice_html in X. destruct (severity_of (fst c)); [|discriminate X]. destruct (template_of (fst c)) as [[ti ex]|]; [|discriminate X].
  destruct (all_of (elem_html (snd c)) ti); [|discriminate X]. destruct (all_of (block_html (snd c)) ex); [|discriminate X]. match type of X with Some [?a] = _ => assert (h = a) by congruence end. subst h. reflexivity.
Qed.
Lemma complaints_shape l k : render_complaints resolve magic error_of l = Some k -> Forall2 stands_for l (flat_map (found "notice") k) /\ forallb (fun h => negb (is_section h)) k = true.
Proof.
  unfold render_complaints. destruct l as [|c l]; intro H; [assert (k = []) by congruence; subst k; split; [constructor|reflexivity]|].
  destruct (all_of (notice_html false) (c :: l)) as [x|] eqn:X; [|discriminate H]. cbn [option_map] in H. assert (k = [Elem "div" [("class", s "complaints")] x]) by congruence. subst k.
  split; [|reflexivity]. cbn [flat_map]. rewrite found_elem, app_nil_r. exact (proj1 (notices_shape X)).
Qed.

(** *** Messages *)
Definition quiet (h : html) : Prop := found "notice" h = [].
Lemma quiet_elem tag attrs kids : existsb (str_eqb (s "notice")) (classes attrs) = false -> Forall quiet kids -> quiet (Elem tag attrs kids).
Proof. intros A K. unfold quiet. rewrite found_elem, A. cbn [app]. induction K as [|h l H K IH]; [reflexivity|]. cbn [flat_map]. now rewrite H, IH. Qed.
Lemma quiet_classless l : forallb classless l = true -> Forall quiet l.
Proof. intro H. apply Forall_forall. intros h I. apply classless_found. rewrite forallb_forall in H. now apply H. Qed.
Lemma quiet_all l : Forall quiet l -> flat_map (found "notice") l = [].
Proof. intro K. induction K as [|h l H K IH]; [reflexivity|]. cbn [flat_map]. now rewrite H, IH. Qed.
Lemma chunks_classless l : forallb classless (flat_map chunk_html l) = true.
Proof.
  induction l as [|c l IH]; [reflexivity|]. cbn [flat_map]. rewrite forallb_app. apply andb_true_iff. split; [|exact IH].
  destruct c as [b|v]; cbn [chunk_html]; [reflexivity|]. destruct v; try reflexivity. apply render_known_classless.
Qed.
Lemma line_quiet m l : quiet (line_html id_of m l).
Proof.
  destruct l as [[p name] pieces]. cbn [line_html]. apply quiet_elem; [reflexivity|]. constructor; [|constructor]. apply quiet_elem; [reflexivity|]. apply quiet_classless.
  rewrite forallb_app, render_known_classless. cbn [forallb classless andb]. apply chunks_classless.
Qed.
Lemma lines_quiet m l : Forall quiet (map (line_html id_of m) l).
Proof. apply Forall_forall. intros h I. apply in_map_iff in I. destruct I as [x [<- _]]. apply line_quiet. Qed.
Lemma body_quiet m b tr : Forall quiet (body_html id_of m b tr).
Proof.
  assert (X : forall kids, forallb classless kids = true -> Forall quiet [Elem "div" (for_object id_of m PBody ++ [("class", s "body-display")]) kids]).
  { intros kids H. constructor; [|constructor]. apply quiet_elem; [reflexivity|]. now apply quiet_classless. }
  destruct b as [| |[|c x]]; cbn [body_html]; [apply X; reflexivity|apply X; reflexivity|constructor|]. apply X. destruct tr; reflexivity.
Qed.
Lemma message_quiet m g : Forall quiet (message_html id_of m g).
Proof.
  unfold message_html. apply Forall_app. split; [apply lines_quiet|]. apply Forall_app. split; [apply body_quiet|]. destruct (g_trailers g) as [|l ls]; [constructor|].
  constructor; [|constructor]. apply quiet_elem; [reflexivity|]. constructor; [reflexivity|apply lines_quiet].
Qed.
Lemma version_quiet m g : Forall quiet (version_html id_of m g).
Proof. unfold version_html. destruct (g_version g) as [[|c x]|]; repeat constructor. Qed.
Lemma start_quiet m g : Forall quiet (start_html id_of m g).
Proof.
  unfold start_html. destruct (g_start g) as [method target|status reason].
  - constructor; [apply quiet_elem; [reflexivity|]; apply quiet_classless, render_known_classless|]. constructor; [reflexivity|]. apply version_quiet.
  - apply Forall_app. split; [apply version_quiet|]. constructor; [|constructor]. apply quiet_elem; [reflexivity|]. apply Forall_app. split; [apply quiet_classless, render_known_classless|]. repeat constructor.
Qed.
Lemma display_quiet m g : quiet (Elem "div" [("class", s "message-display")] (remark_html g ++ Elem "h2" [] [Elem "code" [] (start_html id_of m g)] :: message_html id_of m g)).
Proof.
  apply quiet_elem; [reflexivity|]. apply Forall_app. split; [unfold remark_html; destruct (g_remark g) as [[|c x]|]; repeat constructor|]. constructor; [|apply message_quiet].
  apply quiet_elem; [reflexivity|]. constructor; [|constructor]. apply quiet_elem; [reflexivity|]. apply start_quiet.
Qed.
Notation section_html := (section_html resolve magic error_of message_of id_of visible).
Lemma section_shape m l : section_html m = Some l -> exists h, l = [h] /\ is_section h = true /\ Forall2 stands_for (visible (Msg m)) (found "notice" h).
Proof.
  unfold Html.section_html. destruct (message_of m) as [g|]; [|discriminate]. destruct (render_complaints resolve magic error_of (visible (Msg m))) as [k|] eqn:K; [|discriminate]. intro H.
  match type of H with Some [?a] = _ => exists a; split; [congruence|] end. split; [reflexivity|]. rewrite found_elem, flat_map_cons. rewrite (display_quiet m g). exact (proj1 (complaints_shape K)).
Qed.

(** *** Exchanges *)
Notation hr := (Elem "hr" [] []).
Definition listed_in (m : nat) (sec : html) : Prop := Forall2 stands_for (visible (Msg m)) (found "notice" sec).
Definition outside (l : list html) : list html := flat_map (found "notice") (filter (fun k => negb (is_section k)) l).
Lemma sections_shape ms : forall k, all_of (fun p => rule_after (section_html p)) ms = Some k ->
  Forall2 listed_in ms (filter is_section k) /\ outside k = [] /\ (k = [] -> ms = []).
Proof.
  induction ms as [|m ms IH]; intros k H; cbn [all_of] in H; [assert (k = []) by congruence; subst k; split; [constructor|split; reflexivity]|].
  destruct (section_html m) as [l|] eqn:L; cbn [rule_after option_map] in H; [|discriminate H]. destruct (all_of (fun p => rule_after (section_html p)) ms) as [y|]; [|discriminate H].
  destruct (section_shape L) as (h & -> & S & F). assert (k = ([h] ++ [hr]) ++ y) by congruence. subst k. destruct (IH y eq_refl) as (A & B & _). cbn [app].
  split; [cbn [filter]; rewrite S; constructor; [exact F|exact A]|]. split; [|discriminate]. unfold outside. cbn [filter]. rewrite S. exact B.
Qed.
Lemma filter_none {A} (f : A -> bool) l : forallb (fun x => negb (f x)) l = true -> filter f l = [].
Proof. induction l as [|a l IH]; intro H; [reflexivity|]. cbn [forallb] in H. apply andb_true_iff in H. destruct H as [A1 A2]. cbn [filter]. apply negb_true_iff in A1. rewrite A1. now apply IH. Qed.
Lemma filter_all {A} (f : A -> bool) l : forallb f l = true -> filter f l = l.
Proof. induction l as [|a l IH]; intro H; [reflexivity|]. cbn [forallb] in H. apply andb_true_iff in H. destruct H as [A1 A2]. cbn [filter]. rewrite A1. f_equal. now apply IH. Qed.
Notation exchange_kids := (exchange_kids resolve magic error_of message_of id_of visible request_of responses_of).
Lemma kids_shape e k : exchange_kids e = Some k -> (k = [] -> nothing e) /\ (nothing e -> k = []) /\ box_of e (Elem "div" [("class", s "exchange")] k).
Proof.
  unfold Html.exchange_kids.
  assert (A : forall a, (match request_of e with Some q => rule_after (section_html q) | None => Some [] end) = Some a -> exists ms, ms = match request_of e with Some q => [q] | None => [] end /\ all_of (fun p => rule_after (section_html p)) ms = Some a).
  { intros a H. eexists. split; [reflexivity|]. destruct (request_of e) as [q|]; [|exact H]. cbn [all_of]. rewrite H. now rewrite app_nil_r. }
  destruct (match request_of e with Some q => rule_after (section_html q) | None => Some [] end) as [a|]; [|discriminate]. destruct (A a eq_refl) as (ms & Ms & RA). clear A.
  destruct (all_of (fun p => rule_after (section_html p)) (responses_of e)) as [b|] eqn:RB; [|discriminate].
  assert (C : forall c, (match visible (Exch e) with [] => Some [] | l => rule_after (render_complaints resolve magic error_of l) end) = Some c ->
    Forall2 stands_for (visible (Exch e)) (flat_map (found "notice") c) /\ forallb (fun h => negb (is_section h)) c = true /\ (c = [] <-> visible (Exch e) = [])).
  { intros c H. destruct (visible (Exch e)) as [|v l]; [assert (c = []) by congruence; subst c; split; [constructor|split; [reflexivity|split; reflexivity]]|].
    destruct (render_complaints resolve magic error_of (v :: l)) as [x|] eqn:X; [|discriminate H]. cbn [rule_after option_map] in H. assert (c = x ++ [hr]) by congruence. subst c.
    destruct (complaints_shape X) as [P Q]. rewrite flat_map_app, forallb_app. cbn [flat_map]. rewrite Q. change (found "notice" hr) with (@nil html). rewrite !app_nil_r. split; [exact P|]. split; [reflexivity|].
    split; [intro Z; destruct x; discriminate Z|discriminate]. }
  destruct (match visible (Exch e) with [] => Some [] | l => rule_after (render_complaints resolve magic error_of l) end) as [c|]; [|discriminate].
  destruct (C c eq_refl) as (C1 & C2 & C3). clear C. intro H. assert (k = a ++ b ++ c) by congruence. subst k. clear H.
  destruct (sections_shape RA) as (A1 & A2 & A3). destruct (sections_shape RB) as (B1 & B2 & B3).
  split; [|split].
  - intro Z. apply app_eq_nil in Z. destruct Z as [Z1 Z]. apply app_eq_nil in Z. destruct Z as [Z2 Z3]. split; [|now apply C3]. unfold messages_of. rewrite <- Ms, (A3 Z1), (B3 Z2). reflexivity.
  - intros [Z1 Z2]. unfold messages_of in Z1. rewrite <- Ms in Z1. apply app_eq_nil in Z1. destruct Z1 as [Z1 Z3]. subst ms. rewrite Z1 in RA. rewrite Z3 in RB. cbn [all_of] in RA, RB.
    assert (a = []) by congruence. assert (b = []) by congruence. subst a b. cbn [app]. now apply C3.
  - split; [reflexivity|]. cbn [kids_of]. split; [|split].
    + unfold messages_of. rewrite <- Ms, !filter_app, (filter_none C2), app_nil_r. apply Forall2_app; [exact A1|exact B1].
    + rewrite !filter_app, !flat_map_app. unfold outside in A2, B2. rewrite A2, B2. cbn [app]. now rewrite (filter_all C2).
    + reflexivity.
Qed.

(** ** Theorems *)

(** C73.  As far as it is written, the report has an element for each exchange that has
    messages or visible notices, in order: in it a section for the request and for each
    response, with an element for each visible notice on that message, in order, with its
    severity and id; and after those, one for each visible notice on the exchange itself.
    Nothing else in the report looks like a notice.  The report is complete unless something
    raised; then it lacks the exchange for which that happened, and the ones after it. *)
Theorem C73_listed : forall es, exists written rest, es = written ++ rest /\ boxes written (fst (html_report es)) /\ (snd (html_report es) = true <-> rest = []).
Proof.
  induction es as [|e es IH]; [exists [], []; split; [reflexivity|]; split; [constructor|split; reflexivity]|]. cbn [Html.html_report].
  destruct (exchange_kids e) as [k|] eqn:K.
  - destruct IH as (written & rest & -> & B & D). destruct (html_report (written ++ rest)) as [out done]. cbn [fst snd] in *. exists (e :: written), rest. split; [reflexivity|]. split; [|exact D].
    destruct (kids_shape K) as (K1 & K2 & K3). destruct k as [|h k]; [apply no_box; [now apply K1|exact B]|]. apply a_box; [|exact K3|exact B]. intro N. apply K2 in N. discriminate N.
  - exists [], (e :: es). split; [reflexivity|]. split; [constructor|]. cbn [snd]. split; discriminate.
Qed.
(** The report is complete if each message, and each visible notice, can be shown. *)
Lemma all_of_some {A B} (f : A -> option (list B)) l : (forall a, In a l -> exists k, f a = Some k) -> exists k, all_of f l = Some k.
Proof.
  induction l as [|a l IH]; intro H; cbn [all_of]; [eauto|]. destruct (H a (or_introl eq_refl)) as [x ->]. destruct IH as [y ->]; [intros; apply H; now right|]. eauto.
Qed.
Lemma complaints_some l : (forall c, In c l -> exists k, notice_html false c = Some k) -> exists k, render_complaints resolve magic error_of l = Some k.
Proof. intro H. unfold render_complaints. destruct l as [|c l]; [eauto|]. destruct (all_of_some H) as [k ->]. cbn [option_map]. eauto. Qed.
Theorem C73_finished : forall es,
  (forall e m, In e es -> In m (messages_of e) -> exists g, message_of m = Some g) ->
  (forall e m c, In e es -> In m (messages_of e) -> In c (visible (Msg m)) -> exists k, notice_html false c = Some k) ->
  (forall e c, In e es -> In c (visible (Exch e)) -> exists k, notice_html false c = Some k) ->
  snd (html_report es) = true.
Proof.
  intros es HM HN HE. induction es as [|e es IH]; [reflexivity|]. cbn [Html.html_report].
  assert (S : forall m, In m (messages_of e) -> exists k, rule_after (section_html m) = Some k).
  { intros m I. unfold Html.section_html. destruct (HM e m (or_introl eq_refl) I) as [g ->]. destruct (@complaints_some (visible (Msg m))) as [k ->]; [intros c; apply HN with (e := e); [now left|exact I]|]. cbn [rule_after option_map]. eauto. }
  assert (K : exists k, exchange_kids e = Some k).
  { unfold Html.exchange_kids, messages_of in *.
    assert (A : exists a, (match request_of e with Some q => rule_after (section_html q) | None => Some [] end) = Some a) by (destruct (request_of e) as [q|]; [apply S, in_or_app; left; now left|eauto]).
    destruct A as [a ->]. destruct (@all_of_some _ _ (fun p => rule_after (section_html p)) (responses_of e)) as [b ->]; [intros p I; apply S, in_or_app; now right|].
    assert (C : exists c, (match visible (Exch e) with [] => Some [] | l => rule_after (render_complaints resolve magic error_of l) end) = Some c).
    { pose proof (HE e) as HE'. destruct (visible (Exch e)) as [|c l]; [eauto|]. destruct (@complaints_some (c :: l)) as [k ->]; [intros c' I; apply HE'; [now left|exact I]|]. cbn [rule_after option_map]. eauto. }
    destruct C as [c ->]. eauto. }
  destruct K as [k ->].
  assert (D : snd (html_report es) = true).
  { apply IH; [intros e' m I; apply HM; now right|intros e' m c I; apply HN with (e := e'); now right|intros e' c I; apply HE; now right]. }
  destruct (html_report es) as [out done]. exact D.
Qed.
End Report.
Print Assumptions C73_listed.
Print Assumptions C73_finished.
