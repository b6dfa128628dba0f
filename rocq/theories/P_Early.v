(** C57: on a 103 response, only checks that make sense for early hints are
    applied. *)
From Coq Require Import ZifyBool ZifyNat ZifyN String.
From Verif Require Import Base Earley Grammar Syntax Actions Nested P_Types Text Structure Known Tables Header P_Header P_Views Values Notices ChecksBase ChecksLogic ChecksViews ChecksMessage ChecksRequest ChecksResponse ChecksSays ChecksTop ChecksExchange ChecksExample P_Exchange.
Open Scope nat_scope.
Open Scope list_scope.
Unset Strict Implicit.
Local Open Scope string_scope.
Local Open Scope list_scope.

(** Notices that are about a complete, self-consistent response. *)
Definition about_final : list N := [
  (* the body as an instance of its type *) 1038; 1281; 1275; 1039; 1139; 1140; 1040;
  (* Upgrade, Connection, Warning and so on as they apply to this message *) 1050; 1189; 1190; 1191; 1192; 1237; 1244; 1245;
  (* framing and metadata of this response *) 1018; 1023; 1198; 1052; 1112; 1113; 1147;
  (* caching of this response *) 1166; 1175; 1176; 1202; 1177; 1180; 1181; 1182; 1179; 1178; 1186; 1187; 1301; 1302; 1303;
  1241; 1168; 1169; 1183; 1184; 1185; 1170; 1172; 1173; 1174; 1188;
  (* what it says it allows, prefers *) 1217; 1310; 1216; 1291]%N.

Section Early.
Variable E : env.
Hypothesis http : parses_http (e_read E).
Variable n : nat.
Definition fair (e : event) : Prop := match e with Said (Resp i) id _ => i = n -> ~ In id about_final | _ => True end.

Definition fair_table (t : table) : bool := forallb (fun e => negb (existsb (N.eqb (fst e)) about_final)) t.
Lemma fair_ids t : fair_table t = true -> allows fair (Resp n) t.
Proof.
  intros H id ctx [keys [I _]]. cbn [fst fair] in *. intros _ J. pose proof (proj1 (forallb_forall _ _) H _ I) as Q. cbn [fst] in Q. apply negb_true_iff in Q.
  rewrite <- not_true_iff_false in Q. apply Q. apply existsb_exists. exists id. split; [exact J|apply N.eqb_refl].
Qed.
Lemma fair_headers : fair_table header_notices = true. Proof. vm_compute. reflexivity. Qed.
Lemma fair_hears g t : fair_table t = true -> hears E fair (Resp n) g t.
Proof. intro H. apply hears_all; [exact http| |]; apply fair_ids; [exact fair_headers|exact H]. Qed.
Lemma fair_request g t : hears E fair Req g t.
Proof. split; [intros name c m _ _|intros id ctx _]; exact I. Qed.

Variable p : response.
Hypothesis early : p_status p = 103%Z.
Variable req : option request.
Let j := of_response n p req.
Lemma not_full : content_is_full j E = ([], Ok false).
Proof. unfold content_is_full, j. cbn [j_status of_response]. rewrite early. reflexivity. Qed.
Lemma and_false_r a b : snd (a E) <> Ok true -> snd (andM b a E) <> Ok true.
Proof. intros H K. apply bind_done in K. destruct K as [[|] [_ K]]; [exact (H K)|discriminate K]. Qed.
Lemma not_full' : snd (content_is_full j E) <> Ok true.
Proof. rewrite not_full. discriminate. Qed.
Lemma decoded_fair : emits E fair (decoded_body j).
Proof. apply decoded_body_says; apply fair_hears; vm_compute; reflexivity. Qed.
Lemma unicode_fair : emits E fair (unicode_body j).
Proof. apply unicode_body_says; apply fair_hears; vm_compute; reflexivity. Qed.
Lemma value_fair name : emits E fair (ChecksBase.value j name).
Proof. apply emits_bind; [eapply view_says with (t := []); apply fair_hears; reflexivity|intros; apply emits_ret]. Qed.
Lemma type_fair f : emits E fair (type_is j f).
Proof.
  unfold type_is. apply emits_and; [apply emits_bind; [eapply view_says with (t := []); apply fair_hears; reflexivity|intros; apply emits_ret]|].
  intros _. apply emits_bind; [|intros; apply emits_ret]. apply emits_bind; [apply value_fair|intros; apply emits_some].
Qed.
Lemma full_fair : emits E fair (content_is_full j).
Proof. unfold emits. rewrite not_full. constructor. Qed.
Lemma payload_fair : emits E fair (check_payload j).
Proof.
  assert (D : forall m : M val, emits E fair m -> emits E fair (b <- m ;; ret (okay_value b))) by (intros; apply emits_bind; [assumption|intros; apply emits_ret]).
  assert (N : forall a b, snd ((a &? b &? content_is_full j) E) <> Ok true) by (intros; apply and_false_r, and_false_r, not_full').
  unfold check_payload. apply emits_bind; [apply decoded_fair|intros _ _]. apply emits_bind; [apply unicode_fair|intros _ _].
  apply emits_bind; [|intros _ _; apply emits_bind; [|intros _ _; apply emits_bind; [|intros _ _; apply emits_bind; [|intros; apply emits_ret]]]].
  - unfold json_data. apply emits_ifM; [|intro Q; destruct (N _ _ Q)|intros; apply emits_ret].
    apply emits_and; [apply type_fair|intros _]. apply emits_and; [apply D, unicode_fair|intros _; apply full_fair].
  - unfold xml_data. apply emits_when; [|intro Q; destruct (N _ _ Q)].
    apply emits_and; [apply type_fair|intros _]. apply emits_and; [apply D, decoded_fair|intros _; apply full_fair].
  - unfold multipart_data. apply emits_ifM; [|intro Q; destruct (N _ _ Q)|intros; apply emits_ret].
    apply emits_and; [apply type_fair|intros _]. apply emits_and; [apply D, decoded_fair|intros _; apply full_fair].
  - unfold url_encoded_data. apply emits_ifM; [|intro Q; destruct (N _ _ Q)|intros; apply emits_ret].
    apply emits_and; [apply emits_bind; [eapply view_says with (t := []); apply fair_hears; reflexivity|intros; apply emits_ret]|intros _].
    apply emits_and; [apply D, decoded_fair|intros _; apply full_fair].
Qed.
Lemma early_status l : existsb (Z.eqb 103) l = false -> status_in p l = false.
Proof. unfold status_in. now rewrite early. Qed.
Lemma partial_fair : emits E fair (check_partial_content n p req).
Proof. unfold check_partial_content. rewrite early_status by reflexivity. apply emits_ret. Qed.
Lemma from_cache_early : from_cache n p req E = ([], Ok (Some false)).
Proof. unfold from_cache, status_in. rewrite early. reflexivity. Qed.
Lemma stale_early : stale n p req E = ([], Ok (Some false)).
Proof. unfold stale, status_in. rewrite early. reflexivity. Qed.
Lemma transformed_early : transformed_by_proxy j E = ([], Ok false).
Proof. unfold transformed_by_proxy, j. cbn [j_status of_response]. rewrite early. reflexivity. Qed.
Lemma and_first a b r : a E = ([], Ok false) -> (a &? b) E = ([], Ok false) /\ snd ((a &? b) E) = Ok r -> r = false.
Proof. intros H [K L]. rewrite K in L. cbn [snd] in L. congruence. Qed.
Lemma and_stops a b : a E = ([], Ok false) -> (a &? b) E = ([], Ok false).
Proof. unfold andM, bind. now intros ->. Qed.
Lemma when_stops a b : a E = ([], Ok false) -> emits E fair (when a b).
Proof. unfold when, ifM, emits, bind. intros ->. constructor. Qed.
Lemma proxy_fair q : emits E fair (check_proxy_transformed n p req q).
Proof. unfold check_proxy_transformed. apply when_stops, and_stops, transformed_early. Qed.
Lemma yes_early m : m E = ([], Ok (Some false)) -> yesM m E = ([], Ok false).
Proof. unfold yesM, bind. now intros ->. Qed.
Lemma cache_fair q : emits E fair (check_cache_in_context n p req q).
Proof. unfold check_cache_in_context. apply when_stops, yes_early, from_cache_early. Qed.
Lemma stale_fair q : emits E fair (check_stale_in_context n p req q).
Proof. unfold check_stale_in_context. apply when_stops, and_stops, yes_early, stale_early. Qed.

Definition good (t : table * table) (m : M unit) : Prop := hears2 E fair n p req t \/ emits E fair m.
Lemma good_all ts ms : Forall2 (follows2 E n p req) ts ms -> Forall2 good ts ms -> forall m, In m ms -> emits E fair m.
Proof.
  intros F. induction F as [|t m ts ms A F IH]; intros G m' I; [destruct I|]. inversion G as [ | ? ? ? ? G1 G2]; subst. destruct I as [<-|I]; [|exact (IH G2 m' I)].
  destruct G1 as [[G1 G3]|G1]; [exact (A fair G1 G3)|exact G1].
Qed.
Lemma good_table t m : fair_table (fst t) = true -> good t m.
Proof. intro H. left. split; [now apply fair_hears|intros; apply fair_request]. Qed.
Lemma early_list : ChecksResponse.early p = true.
Proof. unfold ChecksResponse.early, status_in. rewrite early. reflexivity. Qed.
Ltac goods := repeat (first [apply Forall2_nil|apply Forall2_cons; [lazymatch goal with
  | |- good _ (check_payload _) => right; exact payload_fair
  | |- good _ (check_partial_content _ _ _) => right; exact partial_fair
  | |- good _ (check_proxy_transformed _ _ _ _) => right; apply proxy_fair
  | |- good _ (check_cache_in_context _ _ _ _) => right; apply cache_fair
  | |- good _ (check_stale_in_context _ _ _ _) => right; apply stale_fair
  | _ => apply good_table; vm_compute; reflexivity end|]]).
Lemma response_good : Forall2 good (response_tables true) (tl (response_checks n p req)).
Proof.
  unfold response_tables, response_checks. match goal with |- Forall2 _ _ (tl ([?a] ++ ?l)) => change (tl ([a] ++ l)) with l end.
  rewrite early_list. unfold message_checks. assert (S : is_early (of_response n p req) = true) by (unfold is_early; cbn [j_status of_response]; now rewrite early). rewrite S.
  unfold message_tables. rewrite !app_nil_r. cbn [map app]. goods.
Qed.
Lemma context_good q : Forall2 good (context_tables true) (tl (context_checks n p req q)).
Proof.
  unfold context_tables, context_checks. match goal with |- Forall2 _ _ (tl ((?a :: ?k) ++ ?l)) => change (tl ((a :: k) ++ l)) with (k ++ l) end.
  rewrite early_list. rewrite !app_nil_r. goods.
Qed.
End Early.

Lemma early_response E n p req : parses_http (e_read E) -> p_status p = 103%Z -> emits E (fair n) (check_response n p req).
Proof.
  intros http early. assert (S : hears E (fair n) (Resp n) (p_msg p) []) by (apply fair_hears; [exact http|reflexivity]).
  unfold check_response, check_response_itself. apply emits_bind.
  - change (response_checks n p req) with (silence_itself n p req :: tl (response_checks n p req)). apply emits_seq. intros m [<-|J].
    + apply silencing_says with (t := []); [exact S|intros; exact I].
    + pose proof (response_follows http n p req) as F. rewrite early in F. exact (good_all F (response_good http n early req) J).
  - intros _ _. destruct req as [q|] eqn:R; [|apply emits_ret]. unfold check_response_in_context. rewrite <- R.
    change (context_checks n p req q) with (silence_from_request n p req q :: tl (context_checks n p req q)). apply emits_seq. intros m [<-|J].
    + apply silencing_says with (t := []); [apply fair_request|intros; exact I].
    + pose proof (context_follows http n p R) as F. rewrite early in F. refine (good_all F _ J). now apply context_good.
Qed.

(** A response's checks report on it and on the request only. *)
Lemma other_response E n k p req : parses_http (e_read E) -> k <> n -> emits E (fair n) (check_response k p req).
Proof.
  intros http N. apply response_emits; [exact http|intros; exact I|]. apply Forall_forall. intros t _. split; [|intros q _]; (split; [intros name c m _ _|intros id ctx _]); cbn [fair lift]; auto; intro; contradiction.
Qed.
Lemma from_fair E req i p l : parses_http (e_read E) -> p_status p = 103%Z -> forall n final, (exists k, i = n + k /\ nth_error l k = Some p) \/ i < n \/ n + List.length l <= i -> emits E (fair i) (check_responses_from req n final l).
Proof.
  intros http S. induction l as [|p0 l IH]; intros n final H; cbn [check_responses_from]; [apply emits_ret|].
  apply emits_bind; [|intros _ _; apply emits_bind; [|intros _ _]].
  - destruct final; [|apply emits_ret]. apply emits_complain. cbn [fair]. intros _. vm_compute. intuition discriminate.
  - destruct (Nat.eq_dec n i) as [->|NE]; [|now apply other_response]. destruct H as [[k [K N]]|H]; [|cbn [List.length] in H; lia].
    assert (k = 0) by lia. subst k. cbn in N. injection N as ->. now apply early_response.
  - apply IH. destruct H as [[[|k] [K N]]|[H|H]]; [right; left; lia|left; exists k; split; [lia|exact N]|right; left; lia|right; right; cbn [List.length] in H; lia].
Qed.

(** C57.  Nothing that is about a final response is reported on a 103
    response. *)
Theorem C57_exempt : forall E x i p id ctx, parses_http (e_read E) -> response_at x i p -> p_status p = 103%Z -> said E x (Resp i) id ctx -> ~ In id about_final.
Proof.
  intros E x i p id ctx http A S H. assert (F : emits E (fair i) (check_exchange x)).
  { unfold check_exchange. apply emits_bind; [|intros b _; apply emits_bind; [|intros _ _]].
    - destruct (x_request x) as [q|]; [|apply emits_ret]. apply emits_bind; [|intros _ _].
      + apply request_emits; [exact http|intros; exact I|]. apply Forall_forall. intros. apply fair_request.
      + apply emits_bind; [|intros; apply emits_ret]. eapply view_says; apply (fair_request _ i _ []).
    - apply (from_fair (x_request x) http S). left. exists i. auto.
    - generalize b, 0. induction (x_responses x) as [|p0 l IH]; intros e k; cbn [check_continue]; [apply emits_ret|]. apply emits_bind; [|intros; apply IH].
      destruct (_ && _); [|apply emits_ret]. apply emits_complain. cbn [fair]. intros _. vm_compute. intuition discriminate. }
  unfold emits in F. rewrite Forall_forall in F. exact (F _ H eq_refl).
Qed.
Print Assumptions C57_exempt.

(** The same headers on 103 and on 200: Upgrade without the connection option,
    and Age (which is looked at twice). *)
Definition hinted : list (string * string) := [("Upgrade", "foo"); ("Age", "10"); ("Vary", "*")].
Definition hint_exchange : exchange := Exchange None [empty_response 103 hinted; empty_response 200 hinted].
Example C57_example : parses_http (e_read example_env) /\ response_at hint_exchange 0 (empty_response 103 hinted) /\
  filter (noted [1050; 1168; 1018]%N) (fst (check_exchange hint_exchange example_env)) =
    [Silenced (Resp 0) []; Silenced (Resp 1) []; Said (Resp 1) 1050 []; Said (Resp 1) 1168 []; Said (Resp 1) 1168 []].
Proof. split; [exact example_parses|]. split; [reflexivity|]. vm_compute. reflexivity. Qed.
