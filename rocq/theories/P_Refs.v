(** C77: what the references in the HTML report lead to. *)
From Coq Require Import ZifyBool ZifyNat ZifyN String.
From Verif Require Import Base Earley Grammar Parse Text P_Util Actions Structure Known Tables Header HeaderProofs P_Header Values Notices Citation Links Templates Catalogue Titles Blackboard
  ChecksBase ChecksViews ChecksMessage ChecksRequest ChecksResponse ChecksExample P_Exchange Reports P_Catalogue P_Bodies Annotated Verbatim P_Annotated TextReport P_Reports SafeMessage P_Safe P_Looks Html HtmlData P_Html P_HtmlData P_Markup P_Display.
Open Scope nat_scope.
Open Scope list_scope.
Unset Strict Implicit.
Local Open Scope string_scope.
Local Open Scope list_scope.

(** ** Specification *)

(** What a notice mentions, in order: something known in advance (with or without a
    reference), or what a path leads to. *)
Inductive mention := Mention (cls : string) (x : str) (refers : bool) | Path (path : list string).
Fixpoint mentioned (e : elem) : list mention :=
  match e with
  | Words _ => []
  | Templates.Known cls x refers => [Mention cls x refers]
  | Datum path => [Path path]
  | Cite _ quote => flat_map mentioned quote
  end.
Definition mentioned_in (b : block) : list mention := match b with Para l => flat_map mentioned l | Exception_ => [] | Pointer path => [Path path] end.
Definition mentions_of (id : N) : list mention := match template_of id with Some (title, explanation) => flat_map mentioned title ++ flat_map mentioned_in explanation | None => [] end.

(** The references in an element, in order. *)
Fixpoint references (h : html) : list str :=
  match h with
  | Text _ => []
  | Elem _ attrs kids => map snd (filter (fun a => String.eqb (fst a) "data-ref-to") attrs) ++ flat_map references kids
  end.

Section Spec.
Variable x : exchange.
(** The entries that a header of a message consists of: the usable ones, or the last of them
    if there should be only one. *)
Definition header_parts (w : who) (name : str) (l : list (who * part)) : Prop :=
  (subject_at x w = None /\ l = []) \/
  exists j us c, subject_at x w = Some j /\ all_usable (m_entries (j_msg j)) name us /\ class_of name = Some c /\
    (~ shows_one c -> l = map (fun u => (w, PEntry (fst u))) us) /\
    (shows_one c -> (us = [] /\ l = []) \/ exists us' u, us = us' ++ [u] /\ l = [(w, PEntry (fst u))]).
(** The object that a notice is about, and its details. *)
Variable w : who.
Variable ctx : list (str * carg).
Definition detail_at (key : string) (a : carg) : Prop := key <> "msg" /\ exists before after, ctx = before ++ (s key, a) :: after /\ (forall k b, In (k, b) before -> k <> s key).
(** The messages that paths lead to. *)
Inductive path_to : list string -> who -> Prop :=
| path_msg : path_to ["msg"] w
| path_detail key i : detail_at key (CResponse i) -> path_to [key] (Resp i)
| path_request p i : path_to p (Resp i) -> x_request x <> None -> path_to (p ++ ["request"]) Req.
(** The parts of messages that paths lead to. *)
Inductive leads : list string -> list (who * part) -> Prop :=
| leads_method p : path_to p Req -> leads (p ++ ["method"]) [(Req, PMethod)]
| leads_target p : path_to p Req -> leads (p ++ ["target"]) [(Req, PTarget)]
| leads_version p w' : path_to p w' -> leads (p ++ ["version"]) [(w', PVersion)]
| leads_status p i : path_to p (Resp i) -> leads (p ++ ["status"]) [(Resp i, PStatus)]
| leads_body p w' : path_to p w' -> leads (p ++ ["displayable_body"]) [(w', PBody)]
| leads_header p w' a i l : path_to p w' -> In i header_table -> name_from_raw (hk_key i) = s a -> header_parts w' (hk_key i) l -> leads (p ++ ["headers"; a]) l
| leads_entry key w' p : detail_at key (CEntry w' p) -> leads [key] [(w', PEntry p)]
| leads_entries key w' ps : detail_at key (CEntries w' ps) -> leads [key] (map (fun p => (w', PEntry p)) ps)
| leads_view key w' name l : detail_at key (CHeader w' name) -> header_parts w' name l -> leads [key] l
| leads_views key w' names ls : detail_at key (CHeaders w' names) -> Forall2 (header_parts w') names ls -> leads [key] (List.concat ls).
(** The parts of messages that mentions refer to. *)
Inductive concerns : mention -> list (who * part) -> Prop :=
| concerns_path p l : leads p l -> concerns (Path p) l
| concerns_header name l : header_parts w name l -> concerns (Mention "FieldName" name true) l
| concerns_method q : x_request x = Some q -> concerns (Mention "Method" (q_method q) true) [(Req, PMethod)]
| concerns_no_method m : (forall q, x_request x = Some q -> q_method q <> m) -> concerns (Mention "Method" m true) []
| concerns_status i p : w = Resp i -> response_at x i p -> concerns (Mention "StatusCode" (show (p_status p)) true) [(w, PStatus)]
| concerns_no_status t : (forall i p, w = Resp i -> response_at x i p -> show (p_status p) <> t) -> concerns (Mention "StatusCode" t true) []
| concerns_nothing cls t refers : refers = false \/ ~ In cls ["FieldName"; "Method"; "StatusCode"] -> concerns (Mention cls t refers) [].
(** Paths that lead to something else: to a value that is not a part of a message, to something that
    belongs to a part of a message, such as the value of a header, or to a whole message. *)
Inductive plain : list string -> Prop :=
| plain_value key v : detail_at key (CVal v) -> plain [key]
| plain_error key : detail_at key CError -> plain [key]
| plain_message p w' : path_to p w' -> plain p
| plain_headers p w' : path_to p w' -> plain (p ++ ["headers"])
| plain_charset p w' : path_to p w' -> plain (p ++ ["guessed_charset"])
| plain_no_request p i : path_to p (Resp i) -> x_request x = None -> plain (p ++ ["request"])
| plain_of p l a : leads p l -> plain (p ++ [a])
| plain_more p a : plain p -> plain (p ++ [a]).
End Spec.
(** A reference gives the numbers of the parts of messages that a mention refers to. *)
Definition refers (x : exchange) (id_of : thing -> N) (c : who * list (str * carg)) (m : mention) (r : str) : Prop :=
  (forall l, concerns x (fst c) (snd c) m l -> r = join (s " ") (map (fun wp => dec_str (id_of (TPart (fst wp) (snd wp)))) l)) /\
  ((exists l, concerns x (fst c) (snd c) m l) \/ exists p, m = Path p /\ plain x (fst c) (snd c) p).

(** ** Proofs *)
Section Generic.
Context {Ctx : Type}.
Variable resolve : Ctx -> list string -> option (list N * data).
Variable magic : Ctx -> string -> str -> option (list N).
Variable error_of : Ctx -> option failure.
Variable c : Ctx.
Definition ids_of (m : mention) : option (list N) := match m with Mention cls t refers => if refers then magic c cls t else Some [] | Path path => option_map fst (resolve c path) end.
Definition given (m : mention) (r : str) : Prop := exists ids, ids_of m = Some ids /\ r = join (s " ") (map dec_str ids).
Lemma known_references cls t : flat_map references (render_known cls t) = [].
Proof. unfold render_known. destruct (known_citation cls t) as [k|]; [|reflexivity]. destruct (known_title_cited cls t) as [[|b u]|]; reflexivity. Qed.
Fixpoint data_references (d : data) : flat_map references (data_html d) = [].
Proof.
  destruct d as [t|cls t|l|name]; cbn [data_html]; [reflexivity|apply known_references| |reflexivity].
  induction l as [|d l IH]; cbn [flat_map]; [reflexivity|]. rewrite flat_map_app, (data_references d). exact IH.
Qed.
Lemma cite_references k l : cite_html k = Some l -> flat_map references l = [].
Proof. unfold cite_html. destruct (cite_valid k); [|discriminate]. destruct (cite_title k) as [t|]; [|discriminate]. intro H. match type of H with Some ?a = _ => assert (l = a) by congruence end. subst l. reflexivity. Qed.
Lemma detail_references d l : detail_html d = Some l -> flat_map references l = [].
Proof.
  destruct d as [t|name [k|]]; cbn [detail_html]; intro H.
  - match type of H with Some ?a = _ => assert (l = a) by congruence end. subst l. reflexivity.
  - destruct (cite_html k) as [q|] eqn:Q; [|discriminate H]. match type of H with Some ?a = _ => assert (l = a) by congruence end. subst l. cbn [flat_map references app]. rewrite flat_map_app, (cite_references Q). reflexivity.
  - match type of H with Some ?a = _ => assert (l = a) by congruence end. subst l. reflexivity.
Qed.
Lemma all_references {A} (f : A -> option (list html)) : (forall a l, f a = Some l -> flat_map references l = []) -> forall l k, all_of f l = Some k -> flat_map references k = [].
Proof.
  intros F l. induction l as [|a l IH]; intros k H; cbn [all_of] in H; [assert (k = []) by congruence; now subst k|]. destruct (f a) as [u|] eqn:U; [|discriminate H]. destruct (all_of f l) as [v|]; [|discriminate H].
  assert (k = u ++ v) by congruence. subst k. rewrite flat_map_app, (F a u U). now apply IH.
Qed.
Lemma failure_references e l : failure_html e = Some l -> flat_map references l = [].
Proof.
  destruct e as [e|t|name]; cbn [failure_html]; intro H.
  - revert H. apply all_references. intros para k K. destruct (all_of detail_html para) as [q|] eqn:Q; [|discriminate K]. cbn [option_map] in K. assert (k = [Elem "p" [] q]) by congruence. subst k.
    cbn [flat_map references filter map app]. rewrite app_nil_r. exact (all_references detail_references Q).
  - match type of H with Some ?a = _ => assert (l = a) by congruence end. subst l. reflexivity.
  - match type of H with Some ?a = _ => assert (l = a) by congruence end. subst l. reflexivity.
Qed.
Lemma span_references ids kids : flat_map references kids = [] -> flat_map references [Elem "span" (referring_to ids) kids] = [join (s " ") (map dec_str ids)].
Proof. intro K. cbn [flat_map references referring_to filter fst snd map String.eqb Ascii.eqb Bool.eqb app]. now rewrite K. Qed.
Lemma all_given {A} (f : A -> option (list html)) (g : A -> list mention) l : (forall a k, In a l -> f a = Some k -> Forall2 given (g a) (flat_map references k)) -> forall k, all_of f l = Some k -> Forall2 given (flat_map g l) (flat_map references k).
Proof.
  induction l as [|a l IH]; intros F k H; cbn [all_of] in H; [assert (k = []) by congruence; subst k; constructor|]. destruct (f a) as [u|] eqn:U; [|discriminate H]. destruct (all_of f l) as [v|]; [|discriminate H].
  assert (k = u ++ v) by congruence. subst k. cbn [flat_map]. rewrite flat_map_app. apply Forall2_app; [exact (F a u (or_introl eq_refl) U)|]. apply IH; [|reflexivity]. intros b q B. apply F. now right.
Qed.
Fixpoint elem_given (e : elem) {struct e} : forall l, elem_html resolve magic c e = Some l -> Forall2 given (mentioned e) (flat_map references l).
Proof.
  destruct e as [t|cls t r|path|k quote]; cbn [elem_html mentioned]; intros l H.
  - match type of H with Some ?a = _ => assert (l = a) by congruence end. subst l. constructor.
  - destruct (if r then magic c cls t else Some []) as [ids|] eqn:I; [|discriminate H]. cbn [option_map] in H. match type of H with Some ?a = _ => assert (l = a) by congruence end. subst l.
    rewrite (span_references ids (known_references cls t)). constructor; [|constructor]. exists ids. split; [exact I|reflexivity].
  - destruct (resolve c path) as [[ids d]|] eqn:I; [|discriminate H]. match type of H with Some ?a = _ => assert (l = a) by congruence end. subst l.
    rewrite (span_references ids (data_references d)). constructor; [|constructor]. exists ids. split; [cbn [ids_of]; now rewrite I|reflexivity].
  - destruct (cite_html k) as [q|] eqn:Q; [|discriminate H].
    assert (R : forall u, all_of (elem_html resolve magic c) quote = Some u -> Forall2 given (flat_map mentioned quote) (flat_map references u)).
    { clear H. induction quote as [|e quote IH]; intros u U; cbn [all_of] in U; [assert (u = []) by congruence; subst u; constructor|].
      destruct (elem_html resolve magic c e) as [a|] eqn:A; [|discriminate U]. destruct (all_of (elem_html resolve magic c) quote) as [b|]; [|discriminate U]. assert (u = a ++ b) by congruence. subst u.
      cbn [flat_map]. rewrite flat_map_app. apply Forall2_app; [exact (elem_given e a A)|]. now apply IH. }
    destruct quote as [|e quote]; [assert (l = q) by congruence; subst l; rewrite (cite_references Q); constructor|]. destruct (all_of (elem_html resolve magic c) (e :: quote)) as [u|]; [|discriminate H].
    match type of H with Some ?a = _ => assert (l = a) by congruence end. subst l. rewrite flat_map_app, (cite_references Q). cbn [app flat_map references filter map]. rewrite app_nil_r. exact (R u eq_refl).
Qed.
Lemma block_given b l : block_html resolve magic error_of c b = Some l -> Forall2 given (mentioned_in b) (flat_map references l).
Proof.
  destruct b as [es| |path]; cbn [block_html mentioned_in]; intro H.
  - destruct (all_of (elem_html resolve magic c) es) as [k|] eqn:K; [|discriminate H]. cbn [option_map] in H. assert (l = [Elem "p" [] k]) by congruence. subst l. cbn [flat_map references filter map app]. rewrite app_nil_r.
    exact (all_given (fun a k _ => @elem_given a k) K).
  - destruct (error_of c) as [e|]; [|discriminate H]. rewrite (failure_references H). constructor.
  - destruct (resolve c path) as [[ids d]|] eqn:I; [|discriminate H]. match type of H with Some ?a = _ => assert (l = a) by congruence end. subst l.
    rewrite (@span_references ids [Text []] eq_refl). constructor; [|constructor]. exists ids. split; [cbn [ids_of]; now rewrite I|reflexivity].
Qed.
Lemma notice_given anchor id l : notice_html resolve magic error_of anchor (id, c) = Some l -> exists h, l = [h] /\ Forall2 given (mentions_of id) (references h).
Proof.
  unfold notice_html, mentions_of. cbn [fst snd]. destruct (severity_of id) as [sv|]; [|discriminate]. destruct (template_of id) as [[title explanation]|]; [|discriminate].
  destruct (all_of (elem_html resolve magic c) title) as [t|] eqn:T; [|discriminate]. destruct (all_of (block_html resolve magic error_of c) explanation) as [b|] eqn:B; [|discriminate]. intro H.
  match type of H with Some [?a] = _ => exists a; split; [congruence|] end. clear H. cbn [references].
  assert (An : filter (fun a : string * str => String.eqb (fst a) "data-ref-to") (("class", s "notice " ++ s (severity_name sv)) :: (if anchor then [("id", dec_str id)] else [])) = []) by (destruct anchor; reflexivity).
  rewrite An. cbn [map app flat_map references filter fst snd String.eqb Ascii.eqb Bool.eqb]. rewrite !app_nil_r.
  apply Forall2_app; [exact (all_given (fun a k _ => @elem_given a k) T)|exact (all_given (fun a k _ => @block_given a k) B)].
Qed.
End Generic.

(** *** Paths *)
Section Paths.
Variable E : env.
Variable x : exchange.
Variable w : who.
Variable ctx : list (str * carg).
Notation resolve_reference := (resolve_reference E x w ctx).
Notation getattrs := (getattrs E x).
Lemma detail_found key a : detail_at ctx key a -> context_get w ctx key = Some (node_of a).
Proof.
  intros [N (before & after & -> & B)]. unfold context_get. rewrite (proj2 (String.eqb_neq _ _) N).
  assert (F : find (fun kv : str * carg => str_eqb (fst kv) (s key)) (before ++ (s key, a) :: after) = Some (s key, a)); [|now rewrite F].
  induction before as [|[k b] before IH]; cbn [app find fst].
  - now rewrite (proj2 (str_eqb_eq _ _) eq_refl).
  - destruct (str_eqb k (s key)) eqn:K; [apply str_eqb_eq in K; destruct (B k b (or_introl eq_refl) K)|]. apply IH. intros k' b' I. apply (B k' b'). now right.
Qed.
Lemma getattrs_app n p q : getattrs n (p ++ q) = match getattrs n p with Some n' => getattrs n' q | None => None end.
Proof. revert n. induction p as [|a p IH]; intro n; cbn [app Reports.getattrs]; [reflexivity|]. destruct (getattr E x n a); [apply IH|reflexivity]. Qed.
Lemma resolve_app p q : p <> [] -> resolve_reference (p ++ q) = match resolve_reference p with Some n' => getattrs n' q | None => None end.
Proof. destruct p as [|a p]; [congruence|]. intros _. cbn [app Reports.resolve_reference]. destruct (context_get w ctx a); [apply getattrs_app|reflexivity]. Qed.
Lemma path_not_empty p w' : path_to x w ctx p w' -> p <> [].
Proof. destruct 1; try discriminate. destruct p; discriminate. Qed.
Lemma path_message p w' : path_to x w ctx p w' -> forall q n, resolve_reference (p ++ q) = Some n -> getattrs (NMessage w') q = Some n.
Proof.
  induction 1 as [|key i D|p i P IH Q]; intros q n R.
  - exact R.
  - cbn [app Reports.resolve_reference] in R. rewrite (detail_found D) in R. exact R.
  - rewrite <- app_assoc in R. apply IH in R. cbn [app Reports.getattrs getattr] in R. unfold message_attr in R. destruct (subject_at x (Resp i)) as [j|]; [|discriminate R].
    cbn [String.eqb Ascii.eqb Bool.eqb orb] in R. destruct (x_request x); [exact R|congruence].
Qed.
Lemma path_resolved p w' q n : path_to x w ctx p w' -> resolve_reference (p ++ q) = Some n -> resolve_reference p = Some (NMessage w').
Proof.
  intros P R. pose proof R as R'. rewrite (resolve_app q (path_not_empty P)) in R'. destruct (resolve_reference p) as [n'|] eqn:N; [|discriminate R']. rewrite <- (app_nil_r p) in N. apply (path_message P) in N. cbn [Reports.getattrs] in N. congruence.
Qed.
Lemma accessor_key a i key : In i header_table -> name_from_raw (hk_key i) = s a -> accessor (map hk_key header_table) a = Some key -> key = hk_key i.
Proof.
  intros I N A. unfold accessor in A. apply find_some in A. destruct A as [K S]. apply in_map_iff in K. destruct K as [i' [<- I']]. apply str_eqb_eq in S.
  assert (C : forallb (fun i => forallb (fun i' => negb (str_eqb (name_from_raw (hk_key i)) (name_from_raw (hk_key i'))) || str_eqb (hk_key i) (hk_key i')) header_table) header_table = true) by (vm_compute; reflexivity).
  rewrite forallb_forall in C. specialize (C i' I'). rewrite forallb_forall in C. specialize (C i I). rewrite S, N in C. rewrite (proj2 (str_eqb_eq _ _) eq_refl) in C. cbn [negb orb] in C. now apply str_eqb_eq in C.
Qed.
Variable id_of : thing -> N.
Notation numbers l := (map (fun wp => id_of (TPart (fst wp) (snd wp))) l).
Lemma header_ids w' name l k : header_parts x w' name l -> places E x w' name = Some k -> entry_ids id_of w' k = numbers l.
Proof.
  intros [[J ->]|(j & us & c & J & U & C & L1 & L2)] P; unfold places in P; rewrite J in P; [assert (k = []) by congruence; now subst k|]. unfold view_value in P. rewrite J in P. destruct (view_run E j name) as [v [V R]]. rewrite R in P.
  destruct (has_bad (v_value v)); cbn [snd option_map] in P; [discriminate P|]. assert (k = map fst (v_entries v)) by congruence. subst k. clear P.
  destruct (C33_entries V) as (us' & c' & U' & C' & V1 & V2). assert (c' = c) by congruence. subst c'. rewrite (C33_unique U' U) in *. clear U' C' us'.
  assert (D : shows_one c \/ ~ shows_one c) by (unfold shows_one; destruct c as [| | |[]]; (right; intros [X|X]; discriminate X) || (left; auto; fail)).
  destruct D as [D|D].
  - destruct (V2 D) as [[-> ->]|(us' & u & -> & ->)]; destruct (L2 D) as [[X ->]|(us2 & u2 & X & ->)]; try reflexivity; try (destruct us'; discriminate X); try (destruct us2; discriminate X).
    apply app_inj_tail in X. destruct X as [_ ->]. reflexivity.
  - rewrite (V1 D), (L1 D). unfold entry_ids. rewrite !map_map. reflexivity.
Qed.
Variable other : node -> str.
Lemma part_ids p a w' pt r : path_to x w ctx p w' -> part_named a = Some pt -> resolve_html E x other id_of (w, ctx) (p ++ [a]) = Some r -> fst r = numbers [(w', pt)].
Proof.
  intros P A R. unfold resolve_html in R. cbn [fst snd] in R. destruct (resolve_reference (p ++ [a])) as [n|] eqn:N; [|discriminate R].
  assert (PA : part_at E x (w, ctx) (p ++ [a]) = Some (w', pt)) by (unfold part_at; cbn [fst snd]; rewrite removelast_last, last_last, (path_resolved P N), A; reflexivity).
  rewrite PA in R. match type of R with Some ?a = _ => assert (r = a) by congruence end. subst r. reflexivity.
Qed.
Lemma detail_ids key a r : detail_at ctx key a -> resolve_html E x other id_of (w, ctx) [key] = Some r -> node_ids E x id_of (node_of a) = Some (fst r).
Proof.
  intros D R. unfold resolve_html, part_at in R. cbn [fst snd removelast Reports.resolve_reference] in R. rewrite (detail_found D) in R. cbn [Reports.getattrs] in R.
  destruct (node_ids E x id_of (node_of a)) as [ids|]; [|discriminate R]. match type of R with Some ?a = _ => assert (r = a) by congruence end. subst r. reflexivity.
Qed.
Lemma views_parts w' names ls : Forall2 (header_parts x w') names ls -> forall k, views_ids E x id_of w' names = Some k -> k = numbers (List.concat ls).
Proof.
  induction 1 as [|name l names ls H F IH]; intros k V; cbn [views_ids] in V; [assert (k = []) by congruence; now subst k|]. destruct (places E x w' name) as [u|] eqn:U; [|discriminate V]. destruct (views_ids E x id_of w' names) as [v|]; [|discriminate V].
  assert (k = entry_ids id_of w' u ++ v) by congruence. subst k. cbn [List.concat]. rewrite map_app, <- (IH v eq_refl), (header_ids H U). reflexivity.
Qed.
Lemma leads_ids p l r : leads x w ctx p l -> resolve_html E x other id_of (w, ctx) p = Some r -> fst r = numbers l.
Proof.
  destruct 1 as [p P|p P|p w' P|p i P|p w' P|p w' a i l P I N H|key w' p D|key w' ps D|key w' name l D H|key w' names ls D H]; intro R; try (refine (part_ids P _ R); reflexivity).
  - unfold resolve_html in R. cbn [fst snd] in R. destruct (resolve_reference (p ++ ["headers"; a])) as [n|] eqn:G; [|discriminate R].
    pose proof (path_message P G) as G'. cbn [Reports.getattrs getattr] in G'. unfold message_attr in G'. destruct (subject_at x w') as [j|] eqn:J; [|discriminate G']. cbn [String.eqb Ascii.eqb Bool.eqb orb getattr] in G'.
    unfold headers_attr in G'. destruct (accessor (map hk_key header_table) a) as [key|] eqn:A; [|discriminate G']. cbn [option_map] in G'. rewrite (accessor_key I N A) in G'. assert (n = NView w' (hk_key i)) by congruence. subst n.
    assert (PA : part_at E x (w, ctx) (p ++ ["headers"; a]) = None).
    { unfold part_at. cbn [fst snd]. replace (p ++ ["headers"; a]) with ((p ++ ["headers"]) ++ [a]) by now rewrite <- app_assoc. rewrite removelast_last. rewrite (resolve_app ["headers"] (path_not_empty P)), (path_resolved P G).
      cbn [Reports.getattrs getattr]. unfold message_attr. rewrite J. reflexivity. }
    rewrite PA in R. cbn [node_ids] in R. destruct (places E x w' (hk_key i)) as [k|] eqn:K; [|discriminate R]. cbn [option_map] in R. match type of R with Some ?a = _ => assert (r = a) by congruence end. subst r. exact (header_ids H K).
  - pose proof (detail_ids D R) as X. cbn [node_of node_ids] in X. assert (fst r = entry_ids id_of w' [p]) as -> by congruence. reflexivity.
  - pose proof (detail_ids D R) as X. cbn [node_of node_ids] in X. assert (fst r = entry_ids id_of w' ps) as -> by congruence. rewrite map_map. reflexivity.
  - pose proof (detail_ids D R) as X. cbn [node_of node_ids] in X. destruct (places E x w' name) as [k|] eqn:K; [|discriminate X]. cbn [option_map] in X. assert (fst r = entry_ids id_of w' k) as -> by congruence. exact (header_ids H K).
  - pose proof (detail_ids D R) as X. cbn [node_of node_ids] in X. exact (views_parts H X).
Qed.
Lemma concerns_ids m l ids : concerns x w ctx m l -> ids_of (resolve_html E x other id_of) (magic_html E x id_of) (w, ctx) m = Some ids -> ids = numbers l.
Proof.
  destruct 1 as [p l H|name l H|q Q|m H|i p W A|t H|cls t r H]; cbn [ids_of]; intro R.
  - destruct (resolve_html E x other id_of (w, ctx) p) as [r|] eqn:G; [|discriminate R]. cbn [option_map] in R. assert (ids = fst r) by congruence. subst ids. exact (leads_ids H G).
  - unfold magic_html in R. cbn [fst snd String.eqb Ascii.eqb Bool.eqb] in R. destruct (places E x w name) as [k|] eqn:K; [|discriminate R]. cbn [option_map] in R. assert (ids = entry_ids id_of w k) by congruence. subst ids. exact (header_ids H K).
  - unfold magic_html in R. cbn [fst snd String.eqb Ascii.eqb Bool.eqb] in R. rewrite Q in R. rewrite (proj2 (str_eqb_eq _ _) eq_refl) in R. match type of R with Some ?a = _ => assert (ids = a) by congruence end. now subst ids.
  - unfold magic_html in R. cbn [fst snd String.eqb Ascii.eqb Bool.eqb] in R. destruct (x_request x) as [q|]; [|match type of R with Some ?a = _ => assert (ids = a) by congruence end; now subst ids].
    destruct (str_eqb (q_method q) m) eqn:M; [apply str_eqb_eq in M; destruct (H q eq_refl M)|]. match type of R with Some ?a = _ => assert (ids = a) by congruence end. now subst ids.
  - unfold magic_html in R. cbn [fst snd String.eqb Ascii.eqb Bool.eqb] in R. assert (J : subject_at x w = Some (of_response i p (x_request x))) by (rewrite W; unfold subject_at; unfold response_at in A; now rewrite A).
    rewrite J in R. cbn [of_response j_status] in R. rewrite (proj2 (str_eqb_eq _ _) eq_refl) in R. match type of R with Some ?a = _ => assert (ids = a) by congruence end. now subst ids.
  - unfold magic_html in R. cbn [fst snd String.eqb Ascii.eqb Bool.eqb] in R. destruct (subject_at x w) as [j|] eqn:J; [|match type of R with Some ?a = _ => assert (ids = a) by congruence end; now subst ids].
    destruct (j_status j) as [z|] eqn:Z; [|match type of R with Some ?a = _ => assert (ids = a) by congruence end; now subst ids].
    destruct (str_eqb (show z) t) eqn:T; [|match type of R with Some ?a = _ => assert (ids = a) by congruence end; now subst ids]. apply str_eqb_eq in T. exfalso.
    unfold subject_at in J. assert (W : w = Req \/ exists i, w = Resp i) by (clear; destruct w; eauto). destruct W as [W|[i W]]; rewrite W in J.
    + destruct (x_request x) as [q|]; [|discriminate J]. cbn [option_map] in J. assert (j = of_request q) by congruence. subst j. discriminate Z.
    + destruct (nth_error (x_responses x) i) as [p|] eqn:P; [|discriminate J]. cbn [option_map] in J. assert (j = of_response i p (x_request x)) by congruence. subst j. cbn [of_response j_status] in Z. assert (z = p_status p) by congruence. subst z. exact (H i p W P T).
  - destruct r; [|match type of R with Some ?a = _ => assert (ids = a) by congruence end; now subst ids]. destruct H as [H|H]; [discriminate H|]. unfold magic_html in R.
    destruct (String.eqb cls "FieldName") eqn:C1; [apply String.eqb_eq in C1; subst cls; exfalso; apply H; cbn [In]; auto|]. destruct (String.eqb cls "Method") eqn:C2; [apply String.eqb_eq in C2; subst cls; exfalso; apply H; cbn [In]; auto|].
    destruct (String.eqb cls "StatusCode") eqn:C3; [apply String.eqb_eq in C3; subst cls; exfalso; apply H; cbn [In]; auto|]. match type of R with Some ?a = _ => assert (ids = a) by congruence end. now subst ids.
Qed.
End Paths.

(** *** Where paths can lead *)
Section Leads.
Variable E : env.
Variable x : exchange.
Variable w : who.
Variable ctx : list (str * carg).
Notation resolve_reference := (resolve_reference E x w ctx).
Lemma header_parts_some w' name : exists l, header_parts x w' name l.
Proof.
  destruct (subject_at x w') as [j|] eqn:J; [|exists []; left; auto]. destruct (view_run E j name) as [v [V _]]. destruct (C33_entries V) as (us & c & U & C & V1 & V2).
  exists (map (fun u => (w', PEntry (fst u))) (v_entries v)). right. exists j, us, c. split; [exact J|]. split; [exact U|]. split; [exact C|]. split; [intro D; now rewrite (V1 D)|].
  intro D. destruct (V2 D) as [[-> ->]|(us' & u & -> & ->)]; [left; auto|right]. exists us', u. auto.
Qed.
Lemma detail_of key a : key <> "msg" -> find (fun kv : str * carg => str_eqb (fst kv) (s key)) ctx = Some a -> detail_at ctx key (snd a).
Proof.
  intros N F. split; [exact N|]. induction ctx as [|[k b] l IH]; [discriminate F|]. cbn [find fst] in F. destruct (str_eqb k (s key)) eqn:K.
  - apply str_eqb_eq in K. subst k. assert (a = (s key, b)) by congruence. subst a. exists [], l. split; [reflexivity|]. intros ? ? [].
  - destruct (IH F) as (before & after & -> & B). exists ((k, b) :: before), after. split; [reflexivity|]. intros k' b' [I|I]; [|exact (B k' b' I)].
    assert (k' = k) by congruence. subst k'. intro Q. rewrite Q, (proj2 (str_eqb_eq _ _) eq_refl) in K. discriminate K.
Qed.
Definition sorted_out (p : list string) (n : node) : Prop :=
  match n with
  | NMessage w' => path_to x w ctx p w'
  | NHeaders w' => exists q, p = q ++ ["headers"] /\ path_to x w ctx q w'
  | NView w' name => (exists q a i, p = q ++ ["headers"; a] /\ path_to x w ctx q w' /\ In i header_table /\ name_from_raw (hk_key i) = s a /\ name = hk_key i) \/ (exists key, p = [key] /\ detail_at ctx key (CHeader w' name))
  | NArg a => exists key, p = [key] /\ detail_at ctx key a /\ match a with CVal _ | CHeader _ _ | CResponse _ => False | _ => True end
  | NValue _ | NOther => (exists l, leads x w ctx p l) \/ plain x w ctx p
  end.
Lemma view_leads p w' name : sorted_out p (NView w' name) -> exists l, leads x w ctx p l.
Proof.
  destruct (header_parts_some w' name) as [l L]. intros [(q & a & i & -> & Q & I & N & ->)|(key & -> & D)].
  - exists l. exact (leads_header Q I N L).
  - exists l. exact (leads_view w D L).
Qed.
Lemma sort_out p : forall n, resolve_reference p = Some n -> sorted_out p n.
Proof.
  induction p as [|a p IH] using rev_ind; intros n R; [discriminate R|].
  destruct p as [|b p].
  - cbn [app Reports.resolve_reference Reports.getattrs] in R |- *. unfold context_get in R. destruct (String.eqb a "msg") eqn:M.
    + apply String.eqb_eq in M. subst a. assert (n = NMessage w) by congruence. subst n. apply path_msg.
    + apply String.eqb_neq in M. destruct (find (fun kv => str_eqb (fst kv) (s a)) ctx) as [kv|] eqn:F; [|discriminate R]. cbn [option_map] in R. pose proof (detail_of M F) as D.
      assert (n = node_of (snd kv)) by congruence. subst n. clear R F. destruct (snd kv) as [v|w' q|w' l|w' name|w' names| |i]; cbn [node_of sorted_out].
      * right. exact (plain_value x w D).
      * eauto.
      * eauto.
      * right. eauto.
      * eauto.
      * eauto.
      * exact (path_detail x w D).
  - assert (NE : b :: p <> []) by discriminate. remember (b :: p) as q eqn:Hq. clear Hq b p. rewrite (@resolve_app E x w ctx q [a] NE) in R. destruct (resolve_reference q) as [n'|]; [|discriminate R]. specialize (IH n' eq_refl).
    cbn [Reports.getattrs] in R. assert (R' : getattr E x n' a = Some n) by (destruct (getattr E x n' a); exact R). clear R. rename R' into R. destruct n' as [w'|w'|w' name|v|c|]; cbn [getattr] in R; cbn [sorted_out] in IH; try discriminate R.
    + unfold message_attr in R. destruct (subject_at x w') as [j|]; [|discriminate R].
      destruct (String.eqb a "version") eqn:A1; [apply String.eqb_eq in A1; subst a; match type of R with Some ?z = _ => assert (n = z) by congruence end; subst n; left; eexists; exact (leads_version IH)|].
      destruct (String.eqb a "headers") eqn:A2; [apply String.eqb_eq in A2; subst a; match type of R with Some ?z = _ => assert (n = z) by congruence end; subst n; exists q; auto|].
      destruct (String.eqb a "displayable_body") eqn:A3; cbn [orb] in R; [apply String.eqb_eq in A3; subst a; match type of R with Some ?z = _ => assert (n = z) by congruence end; subst n; left; eexists; exact (leads_body IH)|].
      destruct (String.eqb a "guessed_charset") eqn:A4; cbn [orb] in R; [apply String.eqb_eq in A4; subst a; match type of R with Some ?z = _ => assert (n = z) by congruence end; subst n; right; exact (plain_charset IH)|].
      destruct w' as [|i].
      * destruct (x_request x) as [rq|]; [|discriminate R].
        destruct (String.eqb a "method") eqn:A5; [apply String.eqb_eq in A5; subst a; match type of R with Some ?z = _ => assert (n = z) by congruence end; subst n; left; eexists; exact (leads_method IH)|].
        destruct (String.eqb a "target") eqn:A6; [apply String.eqb_eq in A6; subst a; match type of R with Some ?z = _ => assert (n = z) by congruence end; subst n; left; eexists; exact (leads_target IH)|]. discriminate R.
      * destruct (String.eqb a "status") eqn:A5; [apply String.eqb_eq in A5; subst a; destruct (j_status j) as [z|]; [|discriminate R]; cbn [option_map] in R; assert (n = NValue (VInt z)) by congruence; subst n; left; eexists; exact (leads_status IH)|].
        destruct (String.eqb a "request") eqn:A6; [|discriminate R]. apply String.eqb_eq in A6. subst a. destruct (x_request x) as [rq|] eqn:Q.
        -- assert (n = NMessage Req) by congruence. subst n. cbn [sorted_out]. apply (@path_request x w ctx q i IH). congruence.
        -- assert (n = NValue VNone) by congruence. subst n. right. exact (plain_no_request IH Q).
    + destruct IH as (q' & -> & P). unfold headers_attr in R. destruct (accessor (map hk_key header_table) a) as [key|] eqn:A; [|discriminate R]. cbn [option_map] in R. assert (n = NView w' key) by congruence. subst n.
      unfold accessor in A. apply find_some in A. destruct A as [K S]. apply in_map_iff in K. destruct K as [i [<- I]]. apply str_eqb_eq in S. left. exists q', a, i. rewrite <- app_assoc. auto.
    + destruct (@view_leads q w' name IH) as [l L]. unfold view_attr in R. destruct (view_value E x w' name) as [v|]; [|discriminate R].
      assert (N : exists u, n = NValue u).
      { destruct (String.eqb a "value"); [match type of R with Some ?z = _ => assert (n = z) by congruence end; eauto|]. destruct (ci_eq (s "Cache-Control") name).
        - destruct (accessor (map ak_key cache_directive_table) a) as [key|]; [|discriminate R]. cbv zeta in R. destruct (has_bad (directive v key)); [discriminate R|]. match type of R with Some ?z = _ => assert (n = z) by congruence end; eauto.
        - destruct (attr (s a) (v_value v)) as [u|]; [|discriminate R]. cbn [option_map] in R. match type of R with Some ?z = _ => assert (n = z) by congruence end; eauto. }
      destruct N as [u ->]. right. exact (@plain_of x w ctx q l a L).
    + destruct (attr (s a) v) as [u|]; [|discriminate R]. cbn [option_map] in R. assert (n = NValue u) by congruence. subst n. right. destruct IH as [[l L]|P]; [exact (@plain_of x w ctx q l a L)|exact (@plain_more x w ctx q a P)].
Qed.
Lemma leads_or_plain p n : resolve_reference p = Some n -> (exists l, leads x w ctx p l) \/ plain x w ctx p.
Proof.
  intro R. pose proof (sort_out R) as S. destruct n as [w'|w'|w' name|v|c|].
  - right. exact (plain_message S).
  - destruct S as (q & -> & P). right. exact (plain_headers P).
  - left. exact (view_leads S).
  - exact S.
  - destruct S as (key & -> & D & N). destruct c as [v|w' q|w' l|w' name|w' names| |i]; try destruct N.
    + left. eexists. exact (leads_entry x w D).
    + left. eexists. exact (leads_entries x w D).
    + left. assert (L : exists ls, Forall2 (header_parts x w') names ls). { clear - E. induction names as [|n l [ls IH]]; [exists []; constructor|]. destruct (header_parts_some w' n) as [k K]. exists (k :: ls). now constructor. }
      destruct L as [ls L]. eexists. exact (leads_views w D L).
    + right. exact (plain_error x w D).
  - exact S.
Qed.
Variable id_of : thing -> N.
Variable other : node -> str.
Lemma concerns_or_plain m ids : ids_of (resolve_html E x other id_of) (magic_html E x id_of) (w, ctx) m = Some ids -> (exists l, concerns x w ctx m l) \/ exists p, m = Path p /\ plain x w ctx p.
Proof.
  destruct m as [cls t r|p]; cbn [ids_of]; intro R.
  - left. destruct r; [|exists []; apply concerns_nothing; now left]. destruct (string_dec cls "FieldName") as [->|C1]; [destruct (header_parts_some w t) as [l L]; exists l; now apply concerns_header|].
    destruct (string_dec cls "Method") as [->|C2].
    { destruct (x_request x) as [q|] eqn:Q; [|exists []; apply concerns_no_method; intros q' H; congruence]. destruct (str_eqb (q_method q) t) eqn:M.
      - apply str_eqb_eq in M. subst t. eexists. exact (concerns_method w ctx Q).
      - exists []. apply concerns_no_method. intros q' H N. assert (q' = q) by congruence. subst q'. rewrite N, (proj2 (str_eqb_eq _ _) eq_refl) in M. discriminate M. }
    destruct (string_dec cls "StatusCode") as [->|C3].
    { assert (W : w = Req \/ exists i, w = Resp i) by (clear; destruct w; eauto). destruct W as [W|[i W]]; [exists []; apply concerns_no_status; intros i p H; congruence|].
      destruct (nth_error (x_responses x) i) as [p|] eqn:P; [|exists []; apply concerns_no_status; intros i' p H A; unfold response_at in A; assert (i' = i) by congruence; congruence].
      destruct (str_eqb (show (p_status p)) t) eqn:M.
      - apply str_eqb_eq in M. subst t. eexists. exact (concerns_status ctx W P).
      - exists []. apply concerns_no_status. intros i' p' H A N. unfold response_at in A. assert (i' = i) by congruence. subst i'. assert (p' = p) by congruence. subst p'. rewrite N, (proj2 (str_eqb_eq _ _) eq_refl) in M. discriminate M. }
    exists []. apply concerns_nothing. right. cbn [In]. intuition congruence.
  - destruct (resolve_html E x other id_of (w, ctx) p) as [r|] eqn:G; [|discriminate R]. unfold resolve_html in G. cbn [fst snd] in G. destruct (resolve_reference p) as [n|] eqn:N; [|discriminate G].
    destruct (leads_or_plain N) as [[l L]|P]; [left; exists l; now apply concerns_path|right; eauto].
Qed.
End Leads.

(** *** Notices in sections *)
Section Sections.
Context {Ctx : Type}.
Variable resolve : Ctx -> list string -> option (list N * data).
Variable magic : Ctx -> string -> str -> option (list N).
Variable error_of : Ctx -> option failure.
Variable message_of : nat -> option message.
Variable id_of : nat -> part -> N.
Variable visible : obj -> list (N * Ctx).
Notation notice_html := (notice_html resolve magic error_of).
Lemma notices_each anchor l : forall k, all_of (notice_html anchor) l = Some k -> Forall2 (fun c h => notice_html anchor c = Some [h]) l (flat_map (found "notice") k).
Proof.
  induction l as [|c l IH]; intros k H; cbn [all_of] in H; [assert (k = []) by congruence; subst k; constructor|].
  destruct (notice_html anchor c) as [u|] eqn:U; [|discriminate H]. destruct (all_of (notice_html anchor) l) as [v|]; [|discriminate H]. assert (k = u ++ v) by congruence. subst k.
  destruct (notice_shape U) as (h & -> & _ & F). cbn [app flat_map]. rewrite F. cbn [app]. constructor; [exact U|]. now apply IH.
Qed.
Lemma section_notices m h : section_html resolve magic error_of message_of id_of visible m = Some [h] -> Forall2 (fun c k => notice_html false c = Some [k]) (visible (Msg m)) (found "notice" h).
Proof.
  unfold Html.section_html. destruct (message_of m) as [g|]; [|discriminate]. destruct (render_complaints resolve magic error_of (visible (Msg m))) as [k|] eqn:K; [|discriminate]. intro H.
  match type of H with Some [?a] = _ => assert (h = a) by congruence end. subst h. clear H. rewrite found_elem, flat_map_cons. rewrite (display_quiet id_of m g). cbn [app].
  change (existsb (str_eqb (s "notice")) (classes [])) with false. cbv iota. cbn [app]. unfold render_complaints in K. destruct (visible (Msg m)) as [|c l]; [assert (k = []) by congruence; subst k; constructor|].
  destruct (all_of (notice_html false) (c :: l)) as [q|] eqn:Q; [|discriminate K]. cbn [option_map] in K. assert (k = [Elem "div" [("class", s "complaints")] q]) by congruence. subst k. cbn [flat_map]. rewrite found_elem, app_nil_r.
  exact (notices_each Q).
Qed.
End Sections.

(** ** Theorem *)

(** C77.  As far as it is written, the report has, in the section for each message and for each
    visible notice on it, the references that the texts of this notice
    have, in order; and each of them gives the numbers of those parts of messages
    that it is about (if it is about such parts). *)
Theorem C77_references : forall E exchange_at other id_of failed remark_of read visible es,
  let report := report_html E exchange_at other id_of failed remark_of read visible es in
  exists written rest, es = written ++ rest /\
    display (fun e w sec => Forall2 (fun c h => Forall2 (refers (exchange_at (fst (snd c))) (id_of (fst (snd c))) (snd (snd c))) (mentions_of (fst c)) (references h)) (visible (Msg (message_number e w))) (found "notice" sec))
      exchange_at (fun e => visible (Exch e) = []) written (fst report) /\
    (snd report = true <-> rest = []).
Proof.
  intros E exchange_at other id_of failed remark_of read visible es. apply report_display. intros e w h H. apply section_notices in H.
  induction H as [|[id [e' [w' ctx]]] k l ks N F IH]; constructor; [|exact IH]. cbn [fst snd]. destruct (notice_given N) as (k' & Q & G). assert (k' = k) by congruence. subst k'.
  revert G. generalize (mentions_of id) as ms, (references k) as rs. clear. intros ms rs G. induction G as [|m r ms rs [ids [I R]] G IH]; constructor; [|exact IH].
  assert (I' : ids_of (resolve_html E (exchange_at e') other (id_of e')) (magic_html E (exchange_at e') (id_of e')) (w', ctx) m = Some ids) by (destruct m; exact I).
  split; cbn [fst snd]; [|exact (concerns_or_plain I')]. intros p C. rewrite R, (concerns_ids C I'), map_map. reflexivity.
Qed.
Print Assumptions C77_references.

(** The notices on the response of [gzipped_exchange]: they refer to its Content-Encoding
    header (number 3), to its status (number 5), to a value (number 9), and to a Date header, which it
    does not have. *)
Definition refs_ids (t : thing) : N := match t with TPart (Resp 0) (PEntry (false, 0)) => 3%N | TPart (Resp 0) PStatus => 5%N | TPart (Resp 0) PBody => 6%N | TPart _ _ => 8%N | TNode _ => 9%N end.
Definition refs_report : list html * bool :=
  report_html html_env (fun _ => gzipped_exchange) (fun _ => s "?") (fun _ => refs_ids) (fun _ _ => FOther (s "no gzip")) (fun _ _ => None) (fun _ _ => None) html_visible [0].
Example C77_example : snd refs_report = true /\
  map (fun h => map (fun n => (map text_of (found "ident" n), references n)) (found "notice" h)) (fst refs_report) =
    [[([s "1293"], [s "3"]); ([s "1037"], [s "3"; s "9"]); ([s "1037"], [s "3"; s "9"]); ([s "1294"], [s "5"]); ([s "1110"], [[]; s "5"; []])]] /\
  map mentions_of [1037; 1110]%N = [[Mention "FieldName" (s "Content-Encoding") true; Path ["coding"]]; [Mention "FieldName" (s "Date") true; Path ["msg"; "status"]; Mention "FieldName" (s "Date") true]].
Proof. split; [vm_compute; reflexivity|]. split; vm_compute; reflexivity. Qed.
