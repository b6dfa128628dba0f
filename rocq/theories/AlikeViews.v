(** The views of a message whose fields are rearranged. *)
From Coq Require Import ZifyBool ZifyNat ZifyN String Permutation.
From Verif Require Import Base Earley Grammar Syntax Actions Text Structure Known Tables Header HeaderProofs Values ChecksBase ChecksMessage ChecksRequest ChecksResponse Alike.
Open Scope nat_scope.
Open Scope list_scope.
Unset Strict Implicit.
Local Open Scope string_scope.
Local Open Scope list_scope.

(** ** Names up to case *)

Section Names.
Variables n n' : str.
Hypothesis same : same_name n n'.
Lemma ci_same k : ci_eq k n = ci_eq k n'.
Proof. now apply ci_eq_right. Qed.
Lemma header_of_same : header_of n = header_of n'.
Proof. unfold header_of. induction header_table as [|i t IH]; cbn [find_header]; [reflexivity|]. now rewrite ci_same, IH. Qed.
Lemma syntax_same : syntax_for n = syntax_for n'.
Proof. unfold syntax_for. now rewrite header_of_same. Qed.
Lemma flag_same g : flag_of g n = flag_of g n'.
Proof. unfold flag_of. now rewrite header_of_same. Qed.
Lemma header_flag_same g : header_flag g n = header_flag g n'.
Proof. unfold header_flag. now rewrite header_of_same. Qed.
Lemma class_same : class_of n = class_of n'.
Proof.
  unfold class_of, rule_for. rewrite header_of_same. replace (find_special special_cases n) with (find_special special_cases n'); [reflexivity|].
  induction special_cases as [|[k c] t IH]; cbn [find_special]; [reflexivity|]. now rewrite ci_same, IH.
Qed.
Lemma among_same l : among n l = among n' l.
Proof. unfold among. induction l as [|k l IH]; cbn [existsb]; [reflexivity|]. now rewrite ci_same, IH. Qed.
Lemma enumerate_same m : enumerate m n = enumerate m n'.
Proof.
  assert (H : forall l, filter (named n) l = filter (named n') l) by (intro l; apply filter_ext; intro e; unfold named; now apply ci_eq_left).
  unfold enumerate. now rewrite !H.
Qed.
Lemma read_entry_same read c p e : read_entry read c n p e = read_entry read c n' p e.
Proof. unfold read_entry, check_quoted_delims. now rewrite syntax_same, !flag_same. Qed.
Lemma pre_parse_same read c items : pre_parse read c n items = pre_parse read c n' items.
Proof.
  induction items as [|[p e] items IH]; cbn [pre_parse]; [reflexivity|]. rewrite IH, read_entry_same. unfold is_bad_for_trailer. now rewrite flag_same.
Qed.
Lemma parse_view_same read c m : parse_view read c m n = parse_view read c m n'.
Proof.
  unfold parse_view. rewrite enumerate_same, pre_parse_same. destruct (pre_parse read c n' (enumerate m n')) as [[es vs] ns].
  assert (H : combine_entries c n es vs = combine_entries c n' es vs); [|now rewrite H].
  destruct c as [| | |[]]; cbn [combine_entries]; try reflexivity; unfold parse_single, parse_multi; now rewrite same.
Qed.
End Names.

(** ** Notices at other places *)

Section Moved.
Variable read : symbol -> str -> option (val * list vcomplaint).
Variable g : place -> place.
Hypothesis sides : forall p, fst (g p) = fst p.

Definition move_arg (x : arg) : arg :=
  match x with
  | AVal v => AVal v
  | AEntry p => AEntry (g p)
  | AEntries l => AEntries (map g l)
  | AHeader n => AHeader n
  end.
Definition move (n : notice) : notice := (fst n, map (fun kv => (fst kv, move_arg (snd kv))) (snd n)).
(** A result with notices, with these at other places. *)
Definition moved {A} (r r' : A * list notice) : Prop := r' = (fst r, map move (snd r)).

Lemma moved_same {A} (v : A) : moved (v, []) (v, []).
Proof. reflexivity. Qed.
Lemma placed_moved p extra extra' c : map (fun kv => (fst kv, move_arg (snd kv))) extra = extra' -> placed (g p) extra' c = move (placed p extra c).
Proof.
  intro H. unfold placed, move. cbn [fst snd map move_arg]. do 2 f_equal. rewrite map_app, H. f_equal. rewrite map_map. reflexivity.
Qed.
Lemma process_pair_moved ci t p name argument : moved (process_pair read ci t p name argument) (process_pair read ci t (g p) name argument).
Proof.
  unfold process_pair. destruct argument;
    (destruct (match find_arg ci t (text_of name) with Some i => ak_argument i | None => None end) as [[]|]; try reflexivity;
     destruct (match find_arg ci t (text_of name) with Some i => ak_syntax i | None => None end) as [sym|]; try reflexivity;
     match goal with |- context [read sym ?w] => destruct (read sym w) as [[res cs]|] end; try reflexivity;
     unfold moved; cbn [fst snd]; f_equal; rewrite map_map; apply map_ext; intro; apply placed_moved; reflexivity).
Qed.
Lemma process_arguments_moved ci t p pr : moved (process_arguments read ci t p pr) (process_arguments read ci t (g p) pr).
Proof. unfold process_arguments. destruct (unpack2 pr) as [[name argument]|]; [apply process_pair_moved|reflexivity]. Qed.
Lemma process_directive_moved p pr : moved (process_directive read p pr) (process_directive read (g p) pr).
Proof.
  unfold process_directive. destruct (unpack2 pr) as [[name argument]|]; [|reflexivity]. destruct argument; try reflexivity; [apply process_pair_moved|].
  destruct l as [|[] [|a [|]]]; try reflexivity. pose proof (process_pair_moved true cache_directive_table p name a) as H. unfold moved in *. rewrite H.
  destruct (process_pair read true cache_directive_table p name a) as [v ns]. cbn [fst snd]. f_equal. rewrite map_app. f_equal.
  destruct (match find_arg true cache_directive_table (text_of name) with Some i => ak_form i | None => None end) as [[]|]; try reflexivity;
    match goal with |- context [str_eqb ?a ?b] => destruct (str_eqb a b) end; reflexivity.
Qed.
Lemma each_moved h h' l : (forall v, moved (h v) (h' v)) -> moved (each h l) (each h' l).
Proof.
  intro H. unfold moved in *. induction l as [|v l IH]; cbn [each]; [reflexivity|]. rewrite H, IH. destruct (h v) as [v1 ns1], (each h l) as [vs ns2]. cbn [fst snd]. now rewrite map_app.
Qed.
Lemma each_of_moved h h' v : (forall v, moved (h v) (h' v)) -> moved (each_of h v) (each_of h' v).
Proof.
  intro H. unfold each_of. destruct v; try reflexivity. pose proof (each_moved l H) as K. unfold moved in *. rewrite K. destruct (each h l). reflexivity.
Qed.
Lemma process_alternative_moved p v : moved (process_alternative read p v) (process_alternative read (g p) v).
Proof.
  unfold process_alternative. repeat match goal with |- context [match ?x with _ => _ end] => is_var x; destruct x; try reflexivity end.
  pose proof (each_moved l (process_arguments_moved false alt_svc_param_table p)) as K. unfold moved in *. rewrite K.
  destruct (each (process_arguments read false alt_svc_param_table p) l). reflexivity.
Qed.
Lemma process_preference_moved p v : moved (process_preference read p v) (process_preference read (g p) v).
Proof.
  unfold process_preference. destruct (unpack2 v) as [[pr params]|]; [|reflexivity]. pose proof (process_arguments_moved true preference_table p pr) as K.
  unfold moved in *. rewrite K. destruct (process_arguments read true preference_table p pr). reflexivity.
Qed.
Lemma check_elements_moved p l : check_elements (g p) l = map move (check_elements p l).
Proof.
  unfold check_elements. rewrite map_app. f_equal.
  - induction l as [|e l IH]; cbn [flat_map]; [reflexivity|]. rewrite map_app, <- IH. f_equal. rewrite map_map. reflexivity.
  - destruct (_ && _); [|reflexivity]. destruct (dup_names _ _ _); reflexivity.
Qed.
Lemma process_parsed_moved c p v : moved (process_parsed read c p v) (process_parsed read c (g p) v).
Proof.
  destruct c as [| | |[]]; cbn [process_parsed]; try reflexivity.
  - apply each_of_moved, process_directive_moved.
  - apply each_of_moved, process_arguments_moved.
  - destruct v; try (apply each_of_moved, process_alternative_moved). destruct (str_eqb _ _); reflexivity.
  - apply each_of_moved, process_preference_moved.
  - apply each_of_moved, process_arguments_moved.
  - pose proof (each_of_moved v (fun v => each_of_moved v (process_arguments_moved true forwarded_param_table p))) as K. unfold moved in *. rewrite K.
    destruct (each_of (each_of (process_arguments read true forwarded_param_table p)) v) as [v' ns]. cbn [fst snd].
    destruct v'; try reflexivity. cbn [fst snd]. now rewrite map_app, check_elements_moved.
Qed.
Lemma quoted_delims_moved name p v : check_quoted_delims name (g p) v = map move (check_quoted_delims name p v).
Proof.
  unfold check_quoted_delims. induction (texts v) as [|x l IH]; cbn [flat_map]; [reflexivity|]. etransitivity; [|symmetry; apply map_app]. rewrite IH. f_equal. rewrite map_app.
  f_equal; match goal with |- context [if ?b then _ else _] => destruct b end; reflexivity.
Qed.
Lemma read_entry_moved c name p e e' : e_value e = e_value e' -> moved (read_entry read c name p e) (read_entry read c name (g p) e').
Proof.
  intro V. unfold read_entry. rewrite <- V. destruct (syntax_for name) as [x|]; [|reflexivity]. destruct (read x (e_value e)) as [[v cs]|]; [|reflexivity].
  assert (C : map (placed (g p) []) cs = map move (map (placed p []) cs)) by (rewrite map_map; apply map_ext; intro; apply placed_moved; reflexivity).
  destruct (is_unavailable v); [unfold moved; cbn [fst snd]; now rewrite C|]. pose proof (process_parsed_moved c p v) as K. unfold moved in *. rewrite K.
  destruct (process_parsed read c p v) as [v' ns]. cbn [fst snd]. now rewrite quoted_delims_moved, !map_app, C.
Qed.

(** The same value at another place. *)
Definition moves (x y : place * entry) : Prop := g (fst x) = fst y /\ e_value (snd x) = e_value (snd y).
Lemma pre_parse_moved c name items items' es vs ns : Forall2 moves items items' -> pre_parse read c name items = (es, vs, ns) ->
  exists es', pre_parse read c name items' = (es', vs, map move ns) /\ Forall2 moves es es'.
Proof.
  intro F. revert es vs ns. induction F as [|[p e] [p' e'] items items' H F IH]; intros es vs ns P; cbn [pre_parse] in *.
  - injection P as <- <- <-. exists []. split; [reflexivity|constructor].
  - destruct H as [G V]. cbn [fst snd] in G, V. subst p'. destruct (pre_parse read c name items) as [[es1 vs1] ns1]. destruct (IH _ _ _ eq_refl) as [es1' [-> F1]].
    rewrite sides. destruct (fst p && is_bad_for_trailer name).
    + injection P as <- <- <-. exists es1'. split; [reflexivity|exact F1].
    + pose proof (@read_entry_moved c name p e e' V) as K. unfold moved in K. rewrite K. destruct (read_entry read c name p e) as [v ns2]. cbn [fst snd].
      injection P as <- <- <-. exists ((g p, e') :: es1'). split; [now rewrite map_app|]. constructor; [split; [reflexivity|exact V]|exact F1].
Qed.
Lemma moves_places es es' : Forall2 moves es es' -> map fst es' = map g (map fst es).
Proof. intro F. induction F as [|x y es es' [G V] F IH]; cbn [map]; [reflexivity|]. now rewrite IH, G. Qed.
Lemma forall2_rev {A} (R : A -> A -> Prop) l l' : Forall2 R l l' -> Forall2 R (rev l) (rev l').
Proof. intro F. induction F; cbn [rev]; [constructor|]. apply Forall2_app; auto. Qed.
Lemma forall2_size {A} (R : A -> A -> Prop) l l' : Forall2 R l l' -> List.length l = List.length l'.
Proof. intro F. induction F; cbn [List.length]; auto. Qed.
Lemma combine_moved c name es es' vs : Forall2 moves es es' ->
  let '(r, v, ns) := combine_entries c name es vs in
  exists r', combine_entries c name es' vs = (r', v, map move ns) /\ Forall2 moves r r'.
Proof.
  intro F.
  assert (S : forall name, let '(r, v, ns) := parse_single name es vs in exists r', parse_single name es' vs = (r', v, map move ns) /\ Forall2 moves r r').
  { intro n. unfold parse_single. pose proof (forall2_rev F) as R. rewrite (moves_places F), <- (forall2_size F).
    destruct R as [|x y l l' H R]; [exists []; split; [reflexivity|constructor]|].
    destruct (rev vs) as [|v l1]; [exists []; split; [reflexivity|constructor]|]. exists [y]. split; [|constructor; [exact H|constructor]].
    destruct (Nat.ltb _ _); reflexivity. }
  assert (T : forall name, let '(r, v, ns) := parse_multi name es vs in exists r', parse_multi name es' vs = (r', v, map move ns) /\ Forall2 moves r r').
  { intro n. unfold parse_multi. rewrite (moves_places F), <- (forall2_size F). destruct (filter _ vs) as [|v l]; [exists es'; split; [reflexivity|exact F]|].
    destruct (_ && _); exists es'; (split; [reflexivity|exact F]). }
  destruct c as [| | |[]]; cbn [combine_entries]; try apply S; try apply T. unfold parse_unknown. exists es'. split; [reflexivity|exact F].
Qed.
Lemma parse_view_moved c m m' name : Forall2 moves (enumerate m name) (enumerate m' name) ->
  let v := parse_view read c m name in let v' := parse_view read c m' name in
  Forall2 moves (v_entries v) (v_entries v') /\ v_value v' = v_value v /\ v_notices v' = map move (v_notices v).
Proof.
  intro F. cbn zeta. unfold parse_view. destruct (pre_parse read c name (enumerate m name)) as [[es vs] ns] eqn:P.
  destruct (pre_parse_moved F P) as [es' [-> F']]. pose proof (@combine_moved c name es es' vs F') as C.
  destruct (combine_entries c name es vs) as [[r v] ns']. destruct C as [r' [-> C]]. cbn [v_entries v_value v_notices]. rewrite map_app. auto.
Qed.
End Moved.

(** ** Messages whose fields are rearranged *)

(** [m'] is [m] with the fields rearranged, and [g] says where they are. *)
Record matched (g : place -> place) (m m' : msg) : Prop := {
  ma_version : m_version m = m_version m';
  ma_body : m_body m = m_body m';
  ma_decoded : m_decoded m = m_decoded m';
  ma_unicode : m_unicode m = m_unicode m';
  ma_sides : forall p, fst (g p) = fst p;
  ma_fields : forall name, Forall2 (moves g) (enumerate (m_entries m) name) (enumerate (m_entries m') name);
  ma_names : rearranged same_name (names (m_entries m)) (names (m_entries m'));
  ma_trailers : rearranged (fun x y : nat * entry => g (true, fst x) = (true, fst y) /\ same_name (e_name (snd x)) (e_name (snd y)))
                  (number 0 (trailer_entries (m_entries m))) (number 0 (trailer_entries (m_entries m')));
  ma_empty : header_entries (m_entries m) = [] <-> header_entries (m_entries m') = [] }.

Record matched_request (f : who -> place -> place) (q q' : request) : Prop := {
  mq_msg : matched (f Req) (q_msg q) (q_msg q');
  mq_scheme : q_scheme q = q_scheme q';
  mq_method : q_method q = q_method q';
  mq_target : q_target q = q_target q' }.
Inductive matched_option (f : who -> place -> place) : option request -> option request -> Prop :=
| matched_none : matched_option f None None
| matched_some q q' : matched_request f q q' -> matched_option f (Some q) (Some q').
Record matched_response (f : who -> place -> place) (i : nat) (p p' : response) : Prop := {
  mp_msg : matched (f (Resp i)) (p_msg p) (p_msg p');
  mp_status : p_status p = p_status p';
  mp_reason : p_reason p = p_reason p' }.
Record matched_subject (f : who -> place -> place) (j j' : subject) : Prop := {
  mj_who : j_who j = j_who j';
  mj_msg : matched (f (j_who j)) (j_msg j) (j_msg j');
  mj_status : j_status j = j_status j';
  mj_request : matched_option f (j_request j) (j_request j') }.
Lemma of_request_matched f q q' : matched_request f q q' -> matched_subject f (of_request q) (of_request q').
Proof. intro H. constructor; try reflexivity; [apply H|constructor]. Qed.
Lemma of_response_matched f i p p' r r' : matched_response f i p p' -> matched_option f r r' -> matched_subject f (of_response i p r) (of_response i p' r').
Proof. intros H K. constructor; cbn; try reflexivity; [apply H|now rewrite (mp_status H)|exact K]. Qed.

Section Views.
Variable E : env.
Variable f : who -> place -> place.
Notation sim := (sim E f).
Notation alike := (Alike.sim E f eq).
Variables j j' : subject.
Hypothesis J : matched_subject f j j'.

Lemma alike_say id ctx ctx' : same_context f ctx ctx' -> alike (say j id ctx) (say j' id ctx').
Proof. unfold say. rewrite (mj_who J). apply sim_complain. Qed.
Lemma alike_silence ids : alike (silence j ids) (silence j' ids).
Proof. unfold silence. rewrite (mj_who J). split; [|reflexivity]. apply rearranged_one. constructor. Qed.
Lemma lift_moved w (n : notice) : same_event f (lift w n) (lift w (move (f w) n)).
Proof.
  unfold lift, move. cbn [fst snd]. constructor. unfold same_context. rewrite map_map. induction (snd n) as [|[k x] l IH]; cbn [map]; [constructor|]. constructor; [|exact IH].
  cbn [fst snd]. split; [reflexivity|]. destruct x; cbn [move_arg lift_arg]; now constructor.
Qed.
Lemma events_forall2 es es' : Forall2 (same_event f) es es' -> same_events f es es'.
Proof.
  intro F. unfold same_events. apply rearranged_filter; [|now apply rearranged_forall2]. intros x y H. destruct H; reflexivity.
Qed.
(** The same view, with its entries at other places. *)
Definition same_view (v v' : Header.view) : Prop := Forall2 (moves (f (j_who j))) (v_entries v) (v_entries v') /\ v_value v' = v_value v.
Lemma sim_view name name' : same_name name name' -> sim same_view (view j name) (view j' name').
Proof.
  intro N. unfold Alike.sim, view. rewrite <- (class_same N). destruct (class_of name) as [c|]; [|exact Logic.I]. rewrite <- (parse_view_same N).
  destruct (@parse_view_moved (e_read E) (f (j_who j)) (ma_sides (mj_msg J)) c _ _ name (ma_fields (mj_msg J) name)) as (A & B & C).
  rewrite B, C, <- (mj_who J). destruct (has_bad _); [exact Logic.I|]. split; [|split; [exact A|exact B]]. apply events_forall2. rewrite map_map. clear A B C.
  induction (v_notices (parse_view (e_read E) c (m_entries (j_msg j)) name)) as [|n l IH]; cbn [map]; [constructor|]. constructor; [apply lift_moved|exact IH].
Qed.
Lemma sim_view_refl name : sim same_view (view j name) (view j' name).
Proof. now apply sim_view. Qed.
Lemma alike_value name : alike (value j name) (value j' name).
Proof. eapply sim_bind; [apply sim_view_refl|]. intros v v' [_ V]. rewrite V. apply alike_ret. Qed.
Lemma view_present v v' : same_view v v' -> is_present v' = is_present v.
Proof. intros [F _]. unfold is_present. now destruct F. Qed.
Lemma view_okay v v' : same_view v v' -> is_okay v' = is_okay v.
Proof. intros [_ V]. unfold is_okay. now rewrite V. Qed.
Lemma alike_present name : alike (present j name) (present j' name).
Proof. eapply sim_bind; [apply sim_view_refl|]. intros v v' V. rewrite (view_present V). apply alike_ret. Qed.
Lemma alike_absent name : alike (absent j name) (absent j' name).
Proof. apply alike_not, alike_present. Qed.
Lemma alike_okay name : alike (okayM j name) (okayM j' name).
Proof. eapply sim_bind; [apply sim_view_refl|]. intros v v' V. rewrite (view_okay V). apply alike_ret. Qed.
Lemma alike_truth name : alike (truth j name) (truth j' name).
Proof. apply alike_bind; [apply alike_value|]. intro. apply alike_ret. Qed.
Lemma alike_field x v : alike (field x v) (field x v).
Proof. apply alike_some. Qed.
Lemma alike_attr name x : alike (attr_of j name x) (attr_of j' name x).
Proof. apply alike_bind; [apply alike_value|]. intro. apply alike_field. Qed.
Lemma alike_items name : alike (items j name) (items j' name).
Proof. apply alike_bind; [apply alike_value|]. intro. apply alike_bind; [apply alike_some|]. intro. apply alike_ret. Qed.
Lemma alike_has_item name v : alike (has_item j name v) (has_item j' name v).
Proof. apply alike_bind; [apply alike_items|]. intro. apply alike_ret. Qed.
Lemma alike_equal name x : alike (is_equal j name x) (is_equal j' name x).
Proof. eapply sim_bind; [apply sim_view_refl|]. intros v v' V. rewrite (view_okay V), (proj2 V). apply alike_ret. Qed.
Lemma alike_unequal name x : alike (is_unequal j name x) (is_unequal j' name x).
Proof. eapply sim_bind; [apply sim_view_refl|]. intros v v' V. rewrite (view_okay V), (proj2 V). apply alike_ret. Qed.
Lemma alike_compare t name x : alike (compare t j name x) (compare t j' name x).
Proof.
  eapply sim_bind; [apply sim_view_refl|]. intros v v' V. rewrite (view_okay V), (proj2 V). destruct (_ && _); [|apply alike_ret].
  apply alike_bind; [apply alike_some|]. intro. apply alike_ret.
Qed.
Lemma alike_directive name key : alike (directive_of j name key) (directive_of j' name key).
Proof. apply alike_bind; [apply alike_items|]. intro. destruct (first_directive _ _); first [apply alike_ret|apply sim_raise]. Qed.
Lemma alike_without_params : alike (without_params j) (without_params j').
Proof. apply alike_bind; [apply alike_items|]. intro. apply alike_map. intro. apply alike_bind; [apply alike_some|]. intro. apply alike_ret. Qed.
Lemma alike_preference key : alike (preference_of j key) (preference_of j' key).
Proof. apply alike_bind; [apply alike_without_params|]. intro. destruct (first_directive _ _); first [apply alike_ret|apply sim_raise]. Qed.
Lemma same_names : rearranged same_name (header_names j) (header_names j').
Proof. exact (ma_names (mj_msg J)). Qed.
Lemma same_clearly g : rearranged same_name (clearly j g) (clearly j' g).
Proof. apply rearranged_filter; [|exact same_names]. intros x y H. now apply flag_same. Qed.
Lemma alike_dict v : alike (dict v) (dict v).
Proof. apply alike_some. Qed.
Lemma alike_dict_has v k : alike (dict_has v k) (dict_has v k).
Proof. apply alike_bind; [apply alike_dict|]. intro. apply alike_ret. Qed.
Lemma alike_dict_get v k d : alike (dict_get v k d) (dict_get v k d).
Proof. apply alike_bind; [apply alike_dict|]. intro. apply alike_some. Qed.

Lemma context_refl_values (l : list (str * val)) : same_context f (map (fun kv => (fst kv, CVal (snd kv))) l) (map (fun kv => (fst kv, CVal (snd kv))) l).
Proof. induction l; cbn [map]; [constructor|]. constructor; [split; [reflexivity|constructor]|exact IHl]. Qed.
Lemma alike_parse_text x text fail extra extra' : same_context f extra extra' -> alike (parse_text j x text fail extra) (parse_text j' x text fail extra').
Proof.
  intro X. apply alike_bind; [apply alike_ask|]. intros [[v cs]|].
  - apply alike_bind; [|intro; apply alike_ret]. apply alike_each. intro c. apply alike_say. apply Forall2_app; [exact X|apply context_refl_values].
  - apply alike_bind; [|intro; apply alike_ret]. apply alike_say. constructor; [split; [reflexivity|constructor]|exact X].
Qed.
End Views.
