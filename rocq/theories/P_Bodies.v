(** C47, C53: decoding and displaying bodies. *)
From Coq Require Import ZifyBool ZifyNat ZifyN String.
From Verif Require Import Base Earley Grammar Syntax Actions Nested P_Types Text Structure Known Tables Header P_Header P_Views P_Util Values Notices ChecksBase ChecksLogic ChecksViews ChecksMessage ChecksRequest ChecksResponse ChecksSays ChecksTop ChecksExchange ChecksExample P_Exchange.
Open Scope nat_scope.
Open Scope list_scope.
Unset Strict Implicit.
Local Open Scope string_scope.
Local Open Scope list_scope.

(** ** C53: specification *)

(** The content codings that can be undone, and by what. *)
Inductive undoes (E : env) (name : str) : (str -> option str) -> Prop :=
| by_gzip : P_Header.same_name name (s "gzip") -> undoes E name (e_gzip E)
| by_x_gzip : P_Header.same_name name (s "x-gzip") -> undoes E name (e_gzip E)
| by_deflate : P_Header.same_name name (s "deflate") -> undoes E name (e_deflate E)
| by_brotli : P_Header.same_name name (s "br") -> undoes E name (e_brotli E).
(** An element of Content-Encoding: a name, or something malformed. *)
Inductive coding := Named (name : str) | Malformed (x : val).
Definition coding_value (c : coding) : val := match c with Named n => VObj (s "ContentCoding") [VStr n] | Malformed x => VUnavailable x end.
(** [decodes E cs body v ns]: undoing the codings [cs], in this order, from
    [body], gives [v] after the notices [ns].  There is nothing to undo in an
    empty body. *)
Inductive decodes (E : env) : list coding -> str -> val -> list (N * coding) -> Prop :=
| nothing_left body : decodes E [] body (VBytes body) []
| nothing_in_it cs : decodes E cs [] (VBytes []) []
| undo name cs body f body' v ns : body <> [] -> undoes E name f -> f body = Some body' -> decodes E cs body' v ns -> decodes E (Named name :: cs) body v ns
| cannot_undo name cs body f : body <> [] -> undoes E name f -> f body = None -> decodes E (Named name :: cs) body (VUnavailable (VBytes body)) [(1037%N, Named name)]
| unknown name cs body : body <> [] -> (forall f, ~ undoes E name f) -> decodes E (Named name :: cs) body (VUnavailable (VBytes body)) [(1036%N, Named name)]
| malformed x cs body : body <> [] -> decodes E (Malformed x :: cs) body (VUnavailable (VBytes body)) [].
(** How a notice looks. *)
Definition coding_notice (w : who) (n : N * coding) : event :=
  Said w (fst n) ((s "coding", CVal (coding_value (snd n))) :: if N.eqb (fst n) 1037 then [(s "error", CError)] else []).

(** ** Proofs *)
Lemma veq_coding x n : veq (const "ContentCoding" x) (coding_value (Named n)) = ci_eq (s x) n.
Proof.
  unfold const, coding_value. assert (A : is_tuple_class (s "ContentCoding") = false) by reflexivity. assert (B : str_eqb (s "ContentCoding") (s "MultiDict") = false) by reflexivity.
  assert (T : is_transparent (s "ContentCoding") = false) by reflexivity. assert (C : mem_class (s "ContentCoding") ci_classes = true) by reflexivity.
  cbn [veq]. rewrite A, B. cbn [peel]. rewrite T. unfold scalar_eq. cbn [str_like]. rewrite C. reflexivity.
Qed.
Lemma veq_malformed x y : veq (const "ContentCoding" x) (coding_value (Malformed y)) = false.
Proof.
  unfold const, coding_value. assert (A : is_tuple_class (s "ContentCoding") = false) by reflexivity. assert (B : str_eqb (s "ContentCoding") (s "MultiDict") = false) by reflexivity.
  assert (C : mem_class (s "ContentCoding") ci_classes = true) by reflexivity.
  cbn [veq]. rewrite A, B. cbn [peel]. unfold scalar_eq. cbn [str_like]. rewrite C. reflexivity.
Qed.
Lemma ci_eq_name a b : ci_eq a b = true <-> P_Header.same_name b a.
Proof. unfold ci_eq. rewrite str_eqb_eq, same_name_lower. split; congruence. Qed.
Lemma decoder_some E n f : decoder (coding_value (Named n)) = Some f -> undoes E n (f E).
Proof.
  unfold decoder. rewrite !veq_coding. intro H.
  destruct (ci_eq (s "gzip") n) eqn:A; [injection H as <-; apply by_gzip; now apply ci_eq_name|]. cbn [orb] in H.
  destruct (ci_eq (s "x-gzip") n) eqn:B; [injection H as <-; apply by_x_gzip; now apply ci_eq_name|].
  destruct (ci_eq (s "deflate") n) eqn:C; [injection H as <-; apply by_deflate; now apply ci_eq_name|].
  destruct (ci_eq (s "br") n) eqn:D; [injection H as <-; apply by_brotli; now apply ci_eq_name|discriminate H].
Qed.
Lemma decoder_none E n f : decoder (coding_value (Named n)) = None -> ~ undoes E n f.
Proof.
  unfold decoder. rewrite !veq_coding. intros H U. destruct U as [U|U|U|U]; apply ci_eq_name in U; rewrite U in H; cbn [orb] in H; try discriminate H.
  - rewrite orb_true_r in H. discriminate H.
  - destruct (_ || _); discriminate H.
  - destruct (_ || _); [discriminate H|]. destruct (ci_eq _ _); discriminate H.
Qed.
Lemma undoes_unique E n f g : undoes E n f -> undoes E n g -> f = g.
Proof.
  assert (N : forall a b, P_Header.same_name n (s a) -> P_Header.same_name n (s b) -> ci_eq (s a) (s b) = true).
  { intros a b A B. apply same_name_lower in A. apply same_name_lower in B. unfold ci_eq. apply str_eqb_eq. congruence. }
  intros [A|A|A|A] [B|B|B|B]; try reflexivity; exfalso; pose proof (N _ _ A B) as Q; vm_compute in Q; discriminate Q.
Qed.
Lemma decode_all_spec E j cs : forall body, exists v ns, decodes E cs body v ns /\
  decode_all j (map coding_value cs) (VBytes body) E = (map (coding_notice (j_who j)) ns, Ok v).
Proof.
  induction cs as [|c cs IH]; intro body; cbn [map decode_all].
  - exists (VBytes body), []. split; [constructor|reflexivity].
  - destruct body as [|x body]; [exists (VBytes []), []; split; [constructor|reflexivity]|]. assert (NE : x :: body <> []) by discriminate. destruct c as [n|u].
    + destruct (decoder (coding_value (Named n))) as [f|] eqn:D.
      * pose proof (decoder_some E D) as U. unfold bind, ask. destruct (f E (x :: body)) as [y|] eqn:Y.
        { destruct (IH y) as [v [ns [A B]]]. exists v, ns. split; [econstructor; eassumption|]. rewrite B. reflexivity. }
        { eexists _, _. split; [eapply cannot_undo; eassumption|]. reflexivity. }
      * eexists _, _. split; [eapply unknown; [exact NE|intros f U; exact (decoder_none D U)]|]. reflexivity.
    + assert (D : decoder (coding_value (Malformed u)) = None) by (unfold decoder; now rewrite !veq_malformed). rewrite D. cbn [coding_value okay_value].
      eexists _, _. split; [apply malformed; exact NE|reflexivity].
Qed.
Lemma codings_listed : In ("Content-Encoding", Many (P_Types.a "ContentCoding")) value_shapes.
Proof. unfold value_shapes. repeat (first [left; reflexivity|right]). Qed.
Lemma codings_shape : view_shape "Content-Encoding" (Many (P_Types.a "ContentCoding")) = OneOf [Many (OneOf [Unread; P_Types.a "ContentCoding"])].
Proof. vm_compute. reflexivity. Qed.
Lemma codings_of read m v : parses_http read -> view_is read m (s "Content-Encoding") v -> exists cs, v_value v = VList (map coding_value cs).
Proof.
  intros http V. pose proof (view_fits http codings_listed V) as F. rewrite codings_shape in F. apply one_of_in in F. destruct F as [y [[<-|[]] F]]. destruct F as [l [-> F]].
  assert (G : exists cs, l = map coding_value cs); [|destruct G as [cs ->]; eauto]. induction F as [|z l H F IH]; [exists []; reflexivity|]. destruct IH as [cs ->].
  apply one_of_in in H. destruct H as [y [[<-|[<-|[]]] H]].
  - destruct H as [u ->]. exists (Malformed u :: cs). reflexivity.
  - destruct H as [vs [-> G]]. cbn [map P_Types.each] in G. destruct vs as [|w vs]; [destruct G|]. destruct G as [[t [-> _]] G]. destruct vs; [|destruct G]. exists (Named t :: cs). reflexivity.
Qed.

(** C53.  The decoded body of any message (that had no decoded body given to it)
    is what undoing its content codings from the last to the first gives. *)
Theorem C53_decoded : forall E j body, parses_http (e_read E) -> m_decoded (j_msg j) = None -> m_body (j_msg j) = VBytes body ->
  exists view cs v ns, view_is (e_read E) (m_entries (j_msg j)) (s "Content-Encoding") view /\ v_value view = VList (map coding_value cs) /\
  decodes E (rev cs) body v ns /\
  decoded_body j E = (map (lift (j_who j)) (v_notices view) ++ map (coding_notice (j_who j)) ns, Ok v).
Proof.
  intros E j body http D B. assert (NL : ~ P_Header.same_name (s "Content-Encoding") (s "Link")) by (rewrite same_name_lower; vm_compute; discriminate).
  destruct (view_calm http j NL) as [w [W R]]. destruct (codings_of http W) as [cs V].
  destruct (decode_all_spec E j (rev cs) body) as [v [ns [A C]]]. exists w, cs, v, ns. split; [exact W|]. split; [exact V|]. split; [exact A|].
  unfold decoded_body. rewrite D. unfold ChecksBase.value, bind. rewrite R. unfold ret. rewrite V, app_nil_r, B, <- map_rev, C. reflexivity.
Qed.
Print Assumptions C53_decoded.
(** C53.  That determines the outcome: at most one notice is reported, and then
    the decoded body is unavailable. *)
Theorem C53_determined : forall E cs body v ns v' ns', decodes E cs body v ns -> decodes E cs body v' ns' -> v = v' /\ ns = ns'.
Proof.
  intros E cs body v ns v' ns' H. revert v' ns'. induction H; intros v' ns' K; inversion K; subst; try congruence; auto;
    try (match goal with A : undoes E ?n ?f, B : undoes E ?n ?g |- _ => pose proof (undoes_unique A B); subst end);
    try (exfalso; match goal with A : undoes E ?n ?f, B : forall f, ~ undoes E ?n f |- _ => exact (B _ A) end); try congruence.
  apply IHdecodes. congruence.
Qed.
Print Assumptions C53_determined.
Theorem C53_one_notice : forall E cs body v ns, decodes E cs body v ns ->
  (ns = [] \/ exists id c, ns = [(id, c)] /\ (id = 1036%N \/ id = 1037%N) /\ In c cs /\ exists b, v = VUnavailable (VBytes b)).
Proof.
  intros E cs body v ns H. induction H; auto.
  - destruct IHdecodes as [->|[id [c [-> [I [J K]]]]]]; [now left|]. right. exists id, c. repeat split; auto. now right.
  - right. eexists _, _. split; [reflexivity|]. split; [now right|]. split; [now left|eauto].
  - right. eexists _, _. split; [reflexivity|]. split; [now left|]. split; [now left|eauto].
Qed.
Print Assumptions C53_one_notice.
(** C53.  A message without a body that can be read has no decoded body
    either, and nothing is reported about codings. *)
Theorem C53_no_body : forall E j v, parses_http (e_read E) -> m_decoded (j_msg j) = None -> m_body (j_msg j) = v -> v = VNone \/ (exists x, v = VUnavailable x) ->
  exists view, view_is (e_read E) (m_entries (j_msg j)) (s "Content-Encoding") view /\ decoded_body j E = (map (lift (j_who j)) (v_notices view), Ok v).
Proof.
  intros E j v http D B C. assert (NL : ~ P_Header.same_name (s "Content-Encoding") (s "Link")) by (rewrite same_name_lower; vm_compute; discriminate).
  destruct (view_calm http j NL) as [w [W R]]. destruct (codings_of http W) as [cs V]. exists w. split; [exact W|].
  unfold decoded_body. rewrite D. unfold ChecksBase.value, bind. rewrite R. unfold ret. rewrite V, app_nil_r, B, <- map_rev.
  destruct (rev cs) as [|c l]; cbn [map decode_all]; [unfold ret; now rewrite app_nil_r|].
  destruct C as [->|[x ->]]; unfold ret; now rewrite app_nil_r.
Qed.
Print Assumptions C53_no_body.
(** A body under two codings: the second is undone, the first cannot be. *)
Definition coded_texts : list (symbol * string * val) :=
  [(Content_Encoding, "foo, GZip", VList [VObj (s "ContentCoding") [VStr (s "foo")]; VObj (s "ContentCoding") [VStr (s "GZip")]])].
Definition coded_body : str := 31%N :: s "abc".
Definition coded : subject :=
  of_response 0 (Response (Message (Some (s "HTTP/1.1")) (headers_of [("Content-Encoding", "foo, GZip")]) (VBytes coded_body) None None) 200 None) None.
Example C53_example : parses_http (e_read (env_with coded_texts)) /\ m_decoded (j_msg coded) = None /\ m_body (j_msg coded) = VBytes coded_body /\
  decodes (env_with coded_texts) [Named (s "GZip"); Named (s "foo")] coded_body (VUnavailable (VBytes (s "abc"))) [(1036%N, Named (s "foo"))] /\
  decoded_body coded (env_with coded_texts) = ([Said (Resp 0) 1036 [(s "coding", CVal (VObj (s "ContentCoding") [VStr (s "foo")]))]], Ok (VUnavailable (VBytes (s "abc")))).
Proof.
  split; [apply (@env_parses 600); repeat apply Forall_cons; try apply Forall_nil; vm_compute; reflexivity|]. split; [reflexivity|]. split; [reflexivity|]. split; [|vm_compute; reflexivity].
  eapply undo with (body' := s "abc"); [discriminate|apply by_gzip; apply same_name_lower; reflexivity|reflexivity|]. apply unknown; [discriminate|].
  intros f U. refine (decoder_none _ U). vm_compute. reflexivity.
Qed.

(** ** C47 *)

(** The text that is shown: JSON data printed again; else the body as text; else
    the decoded body read as UTF-8 with replacements; else the body itself, read in
    that way.  With what was done to the body before. *)
Inductive source (E : env) (j : subject) : str -> Prop :=
| from_json t : snd (json_data j E) = Ok (JValue (Got t)) -> source E j t
| from_text t : snd (unicode_body j E) = Ok (VStr t) -> source E j t
| from_decoded x : snd (decoded_body j E) = Ok (VBytes x) -> (exists u, snd (unicode_body j E) = Ok u /\ okay_value u = false) -> source E j (e_replace E x)
| from_raw x : m_body (j_msg j) = VBytes x -> (exists u, snd (decoded_body j E) = Ok u /\ okay_value u = false) -> source E j (e_replace E x).
Definition replaced (c : N) (r : N) : Prop := (forbidden c -> r = 65533%N) /\ (~ forbidden c -> r = c).
Definition truncated_phrase : str := s "taking the first 1000 characters".
Definition replaced_phrase : str := s "replacing non-printable characters with the " ++ [65533%N] ++ s " sign".

Definition shows (t r : str) : Prop :=
  List.length r = Nat.min limit (List.length t) /\ forall i c, i < limit -> nth_error t i = Some c -> exists d, nth_error r i = Some d /\ replaced c d.
Lemma nth_firstn {A} (t : list A) : forall n i c, i < n -> nth_error t i = Some c -> nth_error (firstn n t) i = Some c.
Proof.
  induction t as [|x t IH]; intros [|n] [|i] c L N; try (exfalso; lia); try discriminate N; cbn [firstn nth_error] in *; [exact N|]. apply IH; [lia|exact N].
Qed.
Lemma printable_shows t : shows t (printable (firstn limit t)).
Proof.
  split; [unfold printable; rewrite map_length; apply firstn_length|]. intros i c L N. destruct (C45_printable (firstn limit t)) as [_ [P _]].
  assert (F : nth_error (firstn limit t) i = Some c).
  { now apply nth_firstn. }
  destruct (P i c F) as [P1 P2]. unfold printable in *. exists (if unprintable c then replacement else c). rewrite nth_error_map, F. cbn [option_map]. split; [reflexivity|]. split; intro H.
  - apply unprintable_spec in H. now rewrite H.
  - rewrite <- unprintable_spec in H. apply not_true_iff_false in H. now rewrite H.
Qed.
Lemma clip_spec t before v steps : clip t before = (v, steps) -> exists r, v = VStr r /\ shows t r /\ (forall c, In c r -> ~ forbidden c) /\
  steps = before ++ (if Nat.ltb limit (List.length t) then [truncated_phrase] else []) ++ (if existsb unprintable (firstn limit t) then [replaced_phrase] else []).
Proof.
  intro H. exists (printable (firstn limit t)). destruct (C45_printable (firstn limit t)) as [_ [_ [P _]]].
  assert (C : clip t before = (let pr := printable (firstn limit t) in let tr := before ++ (if Nat.ltb limit (List.length t) then [truncated_phrase] else []) in
    if str_eqb (firstn limit t) pr then (VStr (firstn limit t), tr) else (VStr pr, tr ++ [replaced_phrase]))).
  { unfold clip. destruct (Nat.ltb limit (List.length t)) eqn:L; [reflexivity|]. apply Nat.ltb_ge in L. rewrite (firstn_all2 (n := limit) t) by exact L. rewrite app_nil_r. reflexivity. }
  rewrite C in H. clear C. cbv zeta in H.
  assert (U : str_eqb (firstn limit t) (printable (firstn limit t)) = negb (existsb unprintable (firstn limit t))).
  { generalize (firstn limit t) as l. unfold printable. induction l as [|c l IH]; [reflexivity|]. cbn [map existsb str_eqb]. rewrite IH. destruct (unprintable c) eqn:Q; cbn [orb negb andb].
    - assert (R : unprintable replacement = false) by reflexivity. destruct (N.eqb_spec c replacement) as [->|]; [rewrite R in Q; discriminate Q|reflexivity].
    - rewrite N.eqb_refl. reflexivity. }
  rewrite U in H. destruct (existsb unprintable (firstn limit t)); cbn [negb] in H; injection H as <- <-.
  - repeat split; [apply printable_shows|apply printable_shows|exact P|]. now rewrite app_assoc.
  - apply str_eqb_eq in U. rewrite <- U at 1. repeat split; [apply printable_shows|apply printable_shows|exact P|]. now rewrite app_nil_r.
Qed.
Lemma ret_done {A} (x y : A) E : snd (ret x E) = Ok y -> x = y.
Proof. unfold ret. cbn [snd]. congruence. Qed.
Lemma displayed E j v steps : snd (displayable_body j E) = Ok (v, steps) ->
  (v = m_body (j_msg j) /\ okay_value v = false /\ steps = []) \/ exists t before, source E j t /\ clip t before = (v, steps).
Proof.
  unfold displayable_body. intro H. apply bind_done in H. destruct H as [te [_ H]]. apply bind_done in H. destruct H as [ce [_ H]]. apply bind_done in H. destruct H as [cs [_ H]].
  cbv zeta in H. apply bind_done in H. destruct H as [json [J H]].
  assert (U : snd ((u <- unicode_body j ;;
      if okay_value u then
        match u with VStr r => ret (clip r ((if te then [s "removing Transfer-Encoding"] else []) ++ (if ce then [s "removing Content-Encoding"] else []) ++ match cs with Some (x :: c) => if str_eqb (x :: c) (s "utf-8") then [] else [s "decoding from " ++ x :: c] | _ => [] end)) | _ => raise Mistake end
      else
        b <- decoded_body j ;;
        replace <- ask e_replace ;;
        if okay_value b then
          match b with VBytes x => ret (clip (replace x) ((if te then [s "removing Transfer-Encoding"] else []) ++ if ce then [s "removing Content-Encoding"] else [])) | _ => raise Mistake end
        else
          match m_body (j_msg j) with
          | VBytes x => ret (clip (replace x) (if te then [s "removing Transfer-Encoding"] else []))
          | VNone | VUnavailable _ => ret (m_body (j_msg j), [])
          | _ => raise Mistake
          end) E) = Ok (v, steps) -> (v = m_body (j_msg j) /\ okay_value v = false /\ steps = []) \/ exists t before, source E j t /\ clip t before = (v, steps)).
  { clear H J. intro H. apply bind_done in H. destruct H as [u [U H]]. destruct (okay_value u) eqn:O.
    - destruct u; try discriminate H. right. exists x. eexists. split; [now apply from_text|]. exact (ret_done H).
    - apply bind_done in H. destruct H as [b [B H]]. apply bind_done in H. destruct H as [replace [R H]]. unfold ask in R. cbn [snd] in R. assert (replace = e_replace E) by congruence. subst replace. clear R.
      destruct (okay_value b) eqn:OB.
      + destruct b; try discriminate H. right. exists (e_replace E x). eexists. split; [apply from_decoded; [exact B|eauto]|]. exact (ret_done H).
      + destruct (m_body (j_msg j)) eqn:MB; try discriminate H.
        * right. exists (e_replace E x). eexists. split; [apply from_raw; [exact MB|eauto]|]. exact (ret_done H).
        * left. unfold ret in H. cbn [snd] in H. assert (v = VNone) by congruence. subst v. repeat split; congruence.
        * left. unfold ret in H. cbn [snd] in H. match type of MB with _ = ?q => assert (V : v = q) by congruence end. subst v. repeat split; congruence. }
  destruct json as [| |d]; try (exact (U H)). clear U. apply bind_done in H. destruct H as [r [R H]]. destruct d as [t|]; [|discriminate R]. cbn [result_of ret snd] in R. assert (r = t) by congruence. subst r.
  right. exists t. eexists. split; [now apply from_json|]. exact (ret_done H).
Qed.

(** C47.  What is displayed has at most 1000 characters, none of them
    forbidden, and shows the beginning of the text of the body, character by
    character; if something was cut off or replaced, the list of steps says so.
    If there is no body, nothing is displayed. *)
Theorem C47_displayed : forall E j v steps, snd (displayable_body j E) = Ok (v, steps) ->
  (v = m_body (j_msg j) /\ (v = VNone \/ exists x, v = VUnavailable x) /\ steps = []) \/
  exists t r, source E j t /\ v = VStr r /\
    (Z.of_nat (List.length r) <= 1000)%Z /\ Z.of_nat (List.length r) = Z.min 1000 (Z.of_nat (List.length t)) /\
    (forall c, In c r -> ~ forbidden c) /\
    (forall i c, i < List.length r -> nth_error t i = Some c -> exists d, nth_error r i = Some d /\ replaced c d) /\
    ((1000 < Z.of_nat (List.length t))%Z -> In truncated_phrase steps) /\
    ((exists i c, i < List.length r /\ nth_error t i = Some c /\ forbidden c) -> In replaced_phrase steps).
Proof.
  intros E j v steps H. apply displayed in H. destruct H as [[H1 [H2 H3]]|[t [before [S C]]]].
  - left. repeat split; auto. destruct v; try discriminate H2; eauto.
  - right. apply clip_spec in C. destruct C as [r [-> [[L N] [F ->]]]]. exists t, r. assert (LZ : Z.of_nat limit = 1000%Z) by (unfold limit; apply Z2Nat.id; lia).
    split; [exact S|]. split; [reflexivity|]. split; [lia|]. split; [lia|]. split; [exact F|]. split; [|split].
    + intros i c I. apply N. lia.
    + intro G. apply in_or_app. right. apply in_or_app. left. assert (Q : Nat.ltb limit (List.length t) = true) by (apply Nat.ltb_lt; lia). rewrite Q. now left.
    + intros [i [c [I [T Fc]]]]. apply in_or_app. right. apply in_or_app. right.
      assert (Q : existsb unprintable (firstn limit t) = true); [|rewrite Q; now left]. apply existsb_exists. exists c. split; [|now apply unprintable_spec].
      apply nth_error_In with i. apply nth_firstn; [lia|exact T].
Qed.
Print Assumptions C47_displayed.
(** A body with a control character; long bodies are not written out here. *)
Definition controls : subject :=
  of_response 0 (Response (Message (Some (s "HTTP/1.1")) (headers_of []) (VBytes [65; 7; 66]%N) None None) 200 None) None.
Example C47_example : snd (displayable_body controls example_env) = Ok (VStr [65; 65533; 66]%N, [replaced_phrase]) /\
  source example_env controls [65; 7; 66]%N.
Proof. split; [vm_compute; reflexivity|]. apply from_text. vm_compute. reflexivity. Qed.
