(** C78: both reports give notices the same titles. *)
From Coq Require Import ZifyBool ZifyNat ZifyN String.
From Verif Require Import Base Earley Grammar Parse Text P_Util Actions Structure Known Tables Header HeaderProofs P_Header Values Notices Citation Links Templates Catalogue Titles Blackboard
  ChecksBase ChecksViews ChecksMessage ChecksRequest ChecksResponse ChecksExample P_Exchange Reports P_Catalogue P_Bodies Annotated Verbatim P_Annotated TextReport P_Reports SafeMessage P_Safe P_Looks Html HtmlData P_Html P_HtmlData P_Markup P_Display P_Refs.
Open Scope nat_scope.
Open Scope list_scope.
Unset Strict Implicit.
Local Open Scope string_scope.
Local Open Scope list_scope.

(** ** Specification *)

(** The title in the element for a notice: what is in its heading besides the
    severity and the id. *)
Definition title_text (h : html) : str := flat_map text_of (filter (fun k => negb (has_class "severity" k) && negb (has_class "ident" k)) (flat_map kids_of (below "h3" h))).
(** The line for a notice in the text report. *)
Definition line_with (id : N) (title line : str) : Prop :=
  exists sv, severe id sv /\ line = severity_short sv ++ s " " ++ dec_str id ++ s " " ++ detypographize (strip_spaces title) ++ newline.

(** ** Proofs *)
Definition piece_of (e : elem) : piece := match e with Words t => Plain t | Templates.Known _ t _ => Titles.Term t | Datum path => Titles.Var path | Cite _ _ => Plain [] end.
Lemma titles_same : map (fun t => (fst t, map piece_of (fst (snd t)))) templates = titles.
Proof. vm_compute. reflexivity. Qed.
Lemma title_of_template id title explanation : template_of id = Some (title, explanation) -> title_of id = Some (map piece_of title).
Proof.
  unfold template_of, title_of. rewrite <- titles_same. induction templates as [|t l IH]; cbn [find map fst]; [discriminate|]. destruct (N.eqb (fst t) id); [|exact IH]. cbn [option_map snd]. intro H.
  assert (H' : snd t = (title, explanation)) by congruence. now rewrite H'.
Qed.
Lemma no_cites id title explanation : template_of id = Some (title, explanation) -> Forall (fun e => match e with Cite _ _ => False | _ => True end) title.
Proof.
  unfold template_of. intro H. destruct (find (fun t => N.eqb (fst t) id) templates) as [t|] eqn:F; [|discriminate H]. cbn [option_map] in H. apply find_some in F. destruct F as [I _].
  assert (C : forallb (fun t => forallb (fun e => match e with Cite _ _ => false | _ => true end) (fst (snd t))) templates = true) by (vm_compute; reflexivity).
  rewrite forallb_forall in C. specialize (C t I). assert (H' : snd t = (title, explanation)) by congruence. rewrite H' in C. rewrite forallb_forall in C. apply Forall_forall. intros e J. specialize (C e J). destruct e; try exact I0; try exact Logic.I; discriminate C.
Qed.
Section Same.
Variable E : env.
Variable x : exchange.
Variable other : node -> str.
Variable id_of : thing -> N.
Lemma known_str_text cls t : known_str (VObj cls [VStr t]) = if is_number cls then dec_str (dec_value t) else t.
Proof. reflexivity. Qed.
Fixpoint val_same (v : val) : flat_map text_of (data_html (data_of_val other v)) = tree_text (tree_of_val other v).
Proof.
  destruct v as [t|t| | |b|z|f|l|l|cls l| |]; cbn [data_of_val tree_of_val data_html flat_map text_of tree_text]; rewrite ?app_nil_r; try reflexivity.
  - induction l as [|v l IH]; cbn [map flat_map]; [reflexivity|]. now rewrite flat_map_app, (val_same v), IH.
  - destruct l as [|v l]; [cbn [data_html flat_map text_of tree_text]; now rewrite app_nil_r|].
    assert (D : flat_map text_of (data_html (if str_eqb cls (s "Parametrized") then data_of_val other v else DText (other (NValue (VObj cls (v :: l)))))) = tree_text (if str_eqb cls (s "Parametrized") then tree_of_val other v else Leaf (other (NValue (VObj cls (v :: l)))))).
    { destruct (str_eqb cls (s "Parametrized")); [apply val_same|]. cbn [data_html flat_map text_of tree_text]. apply app_nil_r. }
    destruct v as [t|t| | |b|z|f|l'|l'|cls' l'| |]; try exact D. destruct l as [|v l]; [|exact D].
    assert (N : is_number cls = true -> is_known_class cls = true) by (unfold is_number; intro N; apply orb_true_iff in N; destruct N as [N|N]; apply str_eqb_eq in N; subst cls; reflexivity).
    destruct (is_known_class cls) eqn:K.
    + cbn [data_html]. rewrite known_text, known_str_text. destruct (is_number cls); reflexivity.
    + destruct (is_number cls); [specialize (N eq_refl); discriminate N|]. cbn [data_html flat_map text_of tree_text]. apply app_nil_r.
Qed.
Lemma entry_same w p : flat_map text_of (data_html (entry_data x other w p)) = tree_text (entry_tree x other w p).
Proof.
  unfold entry_data, entry_tree. destruct (subject_at x w) as [j|]; [destruct (nth_error _ _) as [e|]|]; cbn [data_html name_data flat_map text_of tree_text]; [apply known_text|apply app_nil_r..].
Qed.
Lemma node_same n : flat_map text_of (data_html (node_data x other n)) = tree_text (tree_of x other n).
Proof.
  destruct n as [w|w|w name|v|[v|w p|w l|w name|w names| |i]|]; cbn [node_data tree_of]; try (cbn [data_html flat_map text_of tree_text]; apply app_nil_r).
  - apply known_text.
  - apply val_same.
  - apply entry_same.
  - cbn [data_html tree_text]. induction l as [|p l IH]; cbn [map flat_map]; [reflexivity|]. now rewrite flat_map_app, entry_same, IH.
  - cbn [data_html tree_text]. induction names as [|n l IH]; cbn [map flat_map]; [reflexivity|]. rewrite flat_map_app, IH. f_equal. apply known_text.
Qed.
Lemma datum_same path n : flat_map text_of (data_html (datum x other path n)) = tree_text (tree_of x other n).
Proof.
  unfold datum. destruct n as [w|w|w name|v|c|]; try apply node_same. destruct v; try apply node_same. destruct (is_status path); [|apply node_same]. cbn [data_html tree_of tree_of_val tree_text]. apply known_text.
Qed.
Lemma path_same c path ids d : resolve_html E x other id_of c path = Some (ids, d) -> exists t, resolve_text E x other c path = Some t /\ flat_map text_of (data_html d) = tree_text t.
Proof.
  unfold resolve_html, resolve_text. destruct (resolve_reference E x (fst c) (snd c) path) as [n|]; [|discriminate]. intro H.
  destruct (match part_at E x c path with Some (w, p) => Some [id_of (TPart w p)] | None => node_ids E x id_of n end) as [i|]; [|discriminate H]. assert (d = datum x other path n) by congruence. subst d.
  cbn [option_map]. eexists. split; [reflexivity|apply datum_same].
Qed.
End Same.
(** Titles, for contexts of any kind. *)
Section Title.
Context {Ctx : Type}.
Variable resolve : Ctx -> list string -> option (list N * data).
Variable magic : Ctx -> string -> str -> option (list N).
Variable error_of : Ctx -> option failure.
Variable resolve' : Ctx -> list string -> option tree.
Hypothesis same : forall c path ids d, resolve c path = Some (ids, d) -> exists t, resolve' c path = Some t /\ flat_map text_of (data_html d) = tree_text t.
Lemma title_pieces c title : Forall (fun e => match e with Cite _ _ => False | _ => True end) title -> forall k, all_of (elem_html resolve magic c) title = Some k -> pieces_text resolve' c (map piece_of title) = Some (flat_map text_of k).
Proof.
  induction 1 as [|e l He Hl IH]; intros k H; cbn [all_of] in H; [assert (k = []) by congruence; subst k; reflexivity|]. destruct (elem_html resolve magic c e) as [a|] eqn:A; [|discriminate H]. destruct (all_of (elem_html resolve magic c) l) as [b|]; [|discriminate H].
  assert (k = a ++ b) by congruence. subst k. cbn [map pieces_text]. rewrite (IH b eq_refl), flat_map_app. destruct e as [t|cls t r|path|q quote]; cbn [elem_html] in A; cbn [piece_of]; [| | |destruct He].
  - match type of A with Some ?z = _ => assert (a = z) by congruence end. subst a. cbn [flat_map text_of]. now rewrite app_nil_r.
  - destruct (if r then magic c cls t else Some []); [|discriminate A]. cbn [option_map] in A. match type of A with Some ?z = _ => assert (a = z) by congruence end. subst a. cbn [flat_map text_of]. now rewrite app_nil_r, known_text.
  - destruct (resolve c path) as [[ids d]|] eqn:R; [|discriminate A]. match type of A with Some ?z = _ => assert (a = z) by congruence end. subst a. destruct (same R) as (t & -> & T). cbn [option_map flat_map text_of]. now rewrite app_nil_r, T.
Qed.
Lemma block_no_h3 c b k : block_html resolve magic error_of c b = Some k -> filter (fun h => match h with Elem t _ _ => String.eqb t "h3" | Text _ => false end) k = [].
Proof.
  destruct b as [es| |path]; cbn [block_html]; intro H.
  - destruct (all_of (elem_html resolve magic c) es) as [q|]; [|discriminate H]. cbn [option_map] in H. assert (k = [Elem "p" [] q]) by congruence. now subst k.
  - destruct (error_of c) as [e|]; [|discriminate H]. destruct e as [e|t|name]; cbn [failure_html] in H.
    + revert k H. generalize (expand_parse_error e) as ps. induction ps as [|p ps IH]; intros k H; cbn [all_of] in H; [assert (k = []) by congruence; now subst k|].
      destruct (all_of detail_html p) as [q|]; [|discriminate H]. cbn [option_map] in H. destruct (all_of _ ps) as [u|]; [|discriminate H]. assert (k = [Elem "p" [] q] ++ u) by congruence. subst k. rewrite filter_app, (IH u eq_refl). reflexivity.
    + match type of H with Some ?z = _ => assert (k = z) by congruence end. now subst k.
    + match type of H with Some ?z = _ => assert (k = z) by congruence end. now subst k.
  - destruct (resolve c path) as [[ids d]|]; [|discriminate H]. match type of H with Some ?z = _ => assert (k = z) by congruence end. now subst k.
Qed.
Lemma notice_line c h : notice_html resolve magic error_of false c = Some [h] -> exists line, complaint_line resolve' c = Some line /\ line_with (fst c) (title_text h) line.
Proof.
  unfold notice_html, complaint_line. destruct (severity_of (fst c)) as [sv|] eqn:SV; [|discriminate]. destruct (template_of (fst c)) as [[title explanation]|] eqn:TE; [|discriminate].
  destruct (all_of (elem_html resolve magic (snd c)) title) as [t|] eqn:T; [|discriminate]. destruct (all_of (block_html resolve magic error_of (snd c)) explanation) as [b|] eqn:B; [|discriminate]. intro H.
  match type of H with Some [?a] = _ => assert (h = a) by congruence end. subst h. clear H. rewrite (title_of_template TE), (title_pieces (no_cites TE) T). eexists. split; [reflexivity|]. exists sv. split; [exact (find_severe SV)|].
  assert (NB : filter (fun h => match h with Elem t _ _ => String.eqb t "h3" | Text _ => false end) b = []).
  { clear - B. revert b B. induction explanation as [|e l IH]; intros b B; cbn [all_of] in B; [assert (b = []) by congruence; now subst b|]. destruct (block_html resolve magic error_of (snd c) e) as [u|] eqn:U; [|discriminate B]. destruct (all_of (block_html resolve magic error_of (snd c)) l) as [v|]; [|discriminate B].
    assert (b = u ++ v) by congruence. subst b. now rewrite filter_app, (block_no_h3 U), (IH v eq_refl). }
  assert (TT : forall a b' i, title_text (Elem "div" a (Elem "h3" [] [Elem "abbr" [("class", s "severity"); ("title", s (severity_name sv))] b'; Elem "span" [("class", s "ident")] i; Elem "span" [] t] :: b)) = flat_map text_of t).
  { intros. unfold title_text, below. cbn [kids_of filter String.eqb Ascii.eqb Bool.eqb]. rewrite NB. cbn [flat_map kids_of app].
    set (f := fun k => negb (has_class "severity" k) && negb (has_class "ident" k)).
    assert (F : forall p q r, filter f [Elem "abbr" [("class", s "severity"); ("title", s (severity_name sv))] p; Elem "span" [("class", s "ident")] q; Elem "span" [] r] = [Elem "span" [] r]).
    { intros. unfold f. cbn [filter]. 
      assert (C1 : has_class "severity" (Elem "abbr" [("class", s "severity"); ("title", s (severity_name sv))] p) = true) by (destruct sv; reflexivity).
      assert (C2 : has_class "ident" (Elem "span" [("class", s "ident")] q) = true) by reflexivity.
      assert (C3 : has_class "severity" (Elem "span" [] r) = false) by reflexivity. assert (C4 : has_class "ident" (Elem "span" [] r) = false) by reflexivity.
      rewrite C1, C2, C3, C4. rewrite andb_false_r. reflexivity. }
    rewrite F. cbn [flat_map text_of]. apply app_nil_r. }
  rewrite TT. reflexivity.
Qed.
End Title.

(** ** Theorem *)

(** C78.  As far as the HTML report is written, the element for each visible notice on a
    message has a title that makes up, together with the letter of its severity and its id, the
    line that the text report has for the notice; there it is stripped, and without typographic
    characters. *)
Theorem C78_titles : forall E exchange_at other id_of failed remark_of read visible es,
  let report := report_html E exchange_at other id_of failed remark_of read visible es in
  let resolve_text_in := fun c => resolve_text E (exchange_at (fst c)) other (snd c) in
  exists written rest, es = written ++ rest /\
    display (fun e w sec => Forall2 (fun c h => exists line, complaint_line resolve_text_in c = Some line /\ line_with (fst c) (title_text h) line) (visible (Msg (message_number e w))) (found "notice" sec))
      exchange_at (fun e => visible (Exch e) = []) written (fst report) /\
    (snd report = true <-> rest = []).
Proof.
  intros E exchange_at other id_of failed remark_of read visible es. cbv zeta. apply report_display. intros e w h H. apply section_notices in H.
  induction H as [|c k l ks N F IH]; constructor; [|exact IH]. revert N. apply notice_line. clear. intros c path ids d R. exact (path_same R).
Qed.
Print Assumptions C78_titles.

(** The first two notices on the response of [gzipped_exchange]. *)
Example C78_example : snd refs_report = true /\
  map (fun h => firstn 2 (map (fun n => (map text_of (found "ident" n), title_text n)) (found "notice" h))) (fst refs_report) =
    [[([s "1293"], s "Invalid field name " ++ [8216%N] ++ s "Content-Encoding" ++ [8217%N]); ([s "1037"], s "Could not decode Content-Encoding: gzip")]] /\
  map (fun c => complaint_line (fun c => resolve_text html_env gzipped_exchange (fun _ => s "?") (snd c)) c) (firstn 2 (html_visible (Msg (message_number 0 (Resp 0))))) =
    [Some (s "E 1293 Invalid field name 'Content-Encoding'" ++ newline); Some (s "E 1037 Could not decode Content-Encoding: gzip" ++ newline)].
Proof. split; [vm_compute; reflexivity|]. split; vm_compute; reflexivity. Qed.
