(** Whole messages: what [parse_request] and [parse_responses] accept is what
    FramingSpec.v says is on the wire, and the other way round. *)
From Verif Require Import Base Stream StreamProofs Framing FramingBasics FramingSpec FramingWire.
From Coq Require Import ZifyBool ZifyNat ZifyN.
Unset Strict Implicit.

Ltac bind_cases H :=
  let a := fresh "a" in let st1 := fresh "st1" in let H1 := fresh "H1" in let H2 := fresh "H2" in
  let e := fresh "e" in let z := fresh "z" in
  apply bind_inv in H;
  destruct H as [(a & st1 & H1 & H2)|[(e & H1 & H2)|[(z & H1 & H2)|[(H1 & H2)|(H1 & H2)]]]];
  try discriminate.

Lemma moved_clear st w ids st' :
  pending st = [] -> moved st w ids st' -> moved st w [] (clear_pending st') /\ pending st' = ids.
Proof.
  intros P [A1 A2 A3 A4 A5]. rewrite P in A5. split; [|exact A5].
  constructor; simpl; auto. now rewrite P.
Qed.

(** * Headings *)

Lemma decimal_from x n : decimal x n -> forall acc, exists k,
  dec_value_from acc x = acc * k + n /\ forall acc', dec_value_from acc' x = acc' * k + n.
Proof.
  assert (forall x y acc, dec_value_from acc (x ++ y) = dec_value_from (dec_value_from acc x) y) as A.
  { intros a b. induction a as [|c a IH]; intro acc; cbn; auto. }
  induction 1 as [c H|x n c H IH Hc]; intro acc.
  - exists 10. cbn [dec_value_from]. split; [lia|intro; lia].
  - destruct (IH acc) as (k & H1 & H2). exists (10 * k). split; [|intro acc'].
    + rewrite A, H1. cbn [dec_value_from]. lia.
    + rewrite A, H2. cbn [dec_value_from]. lia.
Qed.

Lemma decimal_iff x n : decimal x n <-> x <> [] /\ forallb is_digit x = true /\ dec_value x = n.
Proof.
  split.
  - intro H. split; [|split].
    + destruct H; [discriminate|]. intro K. apply app_eq_nil in K. destruct K; discriminate.
    + induction H as [c H|x n c H IH Hc]; [|rewrite forallb_app, IH]; cbn; unfold is_digit; lia.
    + destruct (decimal_from H 0) as (k & H1 & _). unfold dec_value. rewrite H1. lia.
  - assert (forall x y acc, dec_value_from acc (x ++ y) = dec_value_from (dec_value_from acc x) y) as A.
    { intros a b. induction a as [|c a IH]; intro acc; cbn; auto. }
    intros (H1 & H2 & <-). induction x as [|c x IH] using rev_ind; [congruence|].
    rewrite forallb_app in H2. cbn in H2. rewrite andb_true_r in H2. apply andb_true_iff in H2. destruct H2 as [H2 H3].
    assert (48 <= c <= 57) as Hc by (unfold is_digit in H3; lia).
    unfold dec_value. rewrite A. destruct x as [|d x].
    + replace (dec_value_from (dec_value_from 0 []) [c]) with (c - 48) by (cbn [dec_value_from]; lia). now constructor.
    + replace (dec_value_from (dec_value_from 0 (d :: x)) [c]) with (10 * dec_value (d :: x) + (c - 48)).
      * constructor; [|assumption]. apply IH; [discriminate|assumption].
      * unfold dec_value. cbn [dec_value_from]. lia.
Qed.

Lemma http_version_iff v : http_version v <-> is_http_version v = true.
Proof.
  unfold http_version, is_http_version. split.
  - intros (c & d & -> & H1 & H2). cbn. unfold is_digit. lia.
  - destruct v as [|c1 [|c2 [|c3 [|c4 [|c5 [|d1 [|c6 [|d2 [|? ?]]]]]]]]]; try discriminate.
    intro H. apply andb_true_iff in H. destruct H as [H H3]. apply andb_true_iff in H. destruct H as [H1 H2].
    apply str_eqb_eq in H1. injection H1 as -> -> -> -> -> ->. unfold is_digit in *.
    exists d1, d2. split; [reflexivity|]. lia.
Qed.

Lemma status_iff digits status :
  (List.length digits = 3%nat /\ decimal digits status) <->
  is_status_code digits = true /\ dec_value digits = status.
Proof.
  rewrite decimal_iff. unfold is_status_code. split.
  - intros (H1 & H2 & H3 & H4). split; [|assumption].
    destruct digits as [|a [|b [|c [|? ?]]]]; try discriminate. cbn in H3. now rewrite andb_true_r, andb_assoc in H3.
  - intros (H1 & H2). destruct digits as [|a [|b [|c [|? ?]]]]; try discriminate.
    split; [reflexivity|]. split; [discriminate|]. split; [|assumption]. cbn. now rewrite andb_true_r, andb_assoc.
Qed.

Lemma is_http_version_nospace v : is_http_version v = true -> ~ In 32 v.
Proof.
  unfold is_http_version.
  destruct v as [|c1 [|c2 [|c3 [|c4 [|c5 [|d1 [|c6 [|d2 [|? ?]]]]]]]]]; try discriminate.
  intro H. apply andb_true_iff in H. destruct H as [H H3]. apply andb_true_iff in H. destruct H as [H1 H2].
  apply str_eqb_eq in H1. injection H1 as -> -> -> -> -> ->. unfold is_digit in *.
  cbn [In]. intros [K|[K|[K|[K|[K|[K|[K|[K|[]]]]]]]]]; try discriminate; subst; discriminate.
Qed.

Lemma is_status_code_nospace v : is_status_code v = true -> ~ In 32 v.
Proof.
  unfold is_status_code. destruct v as [|d1 [|d2 [|d3 [|? ?]]]]; try discriminate.
  unfold is_digit. intros H K. cbn [In] in K. lia.
Qed.

Lemma split3_complete a b c :
  ~ In 32 a -> ~ In 32 b -> ~ In 32 c -> split_on 32 (request_line a b c) = [a; b; c].
Proof.
  intros. unfold request_line. rewrite split_on_app, split_on_app, split_on_no_sep by assumption.
  reflexivity.
Qed.

Lemma split_on_nonempty sep x : split_on sep x <> [].
Proof.
  destruct x as [|c x]; cbn; [discriminate|]. destruct (c =? sep); [discriminate|].
  destruct (split_on sep x); discriminate.
Qed.

Lemma split_on_cons_inv sep x a ps :
  split_on sep x = a :: ps ->
  ~ In sep a /\ ((ps = [] /\ x = a) \/ exists y, x = a ++ sep :: y /\ split_on sep y = ps).
Proof.
  revert a ps; induction x as [|c x IH]; intros a ps H; cbn in H.
  - injection H as <- <-. split; [intros []|]. auto.
  - destruct (c =? sep) eqn:E.
    + apply N.eqb_eq in E. subst c. injection H as <- <-. split; [intros []|]. right. exists x. auto.
    + apply N.eqb_neq in E. destruct (split_on sep x) as [|p qs] eqn:Q; [destruct (split_on_nonempty Q)|].
      injection H as <- <-. destruct (IH p qs eq_refl) as [H1 H2]. split.
      * intros [K|K]; [congruence|auto].
      * destruct H2 as [[-> ->]|(y & -> & Hy)]; [auto|]. right. exists y. auto.
Qed.

Lemma split3_sound x a b c :
  split_on 32 x = [a; b; c] -> x = request_line a b c /\ ~ In 32 a /\ ~ In 32 b.
Proof.
  intro H. apply split_on_cons_inv in H. destruct H as [Ha [[K _]|(y & -> & H)]]; [discriminate|].
  apply split_on_cons_inv in H. destruct H as [Hb [[K _]|(z & -> & H)]]; [discriminate|].
  apply split_on_cons_inv in H. destruct H as [Hc [[_ ->]|(u & _ & H)]]; [auto|].
  destruct (split_on_nonempty H).
Qed.

Lemma split_2_complete a b c :
  ~ In 32 a -> ~ In 32 b -> split_on_2 32 (status_line a b c) = [a; b; c].
Proof.
  intros. unfold split_on_2, status_line. rewrite partition_at_app by assumption.
  now rewrite partition_at_app by assumption.
Qed.

Lemma split_2_sound x a b c : split_on_2 32 x = [a; b; c] -> x = status_line a b c.
Proof.
  unfold split_on_2. destruct (partition_at 32 x) as [[a' r]|] eqn:P; [|discriminate].
  destruct (partition_at 32 r) as [[b' c']|] eqn:Q; [|discriminate]. intro H. injection H as -> -> ->.
  apply partition_at_some in P. apply partition_at_some in Q. destruct P as [-> _], Q as [-> _].
  reflexivity.
Qed.

Lemma request_heading_complete meth target version es ids w st tail :
  request_heading_on_wire meth target version es ids w -> pending st = [] -> rest st = w ++ tail ->
  exists st',
    parse_request_heading st =
      (Val (mkRequest meth target version
              (mkMessage es [] (Unavail None) (pos st) (place_notes RequestHeading ids))), st') /\
    moved st w [] st' /\ rest st' = tail.
Proof.
  intros (H1 & H2 & H3 & l & ids' & w' & H4 & H5 & H6 & -> & ->) P R. apply http_version_iff in H3.
  rewrite <- app_assoc in R.
  destruct (readline_complete H5 R) as (st1 & Q1 & Q2 & Q3).
  destruct (block_complete H6 (moved_settled Q2) Q3) as (st2 & st3 & B1 & B2 & B3 & B4).
  pose proof (moved_trans Q2 B3) as M. destruct (moved_clear P M) as [M1 M2].
  exists (clear_pending st3). split; [|auto].
  unfold parse_request_heading. rewrite bind_tell, (bind_val _ Q1), H4.
  rewrite split3_complete by (auto using is_http_version_nospace). rewrite H3.
  rewrite (bind_val _ B1), (bind_val _ B2). unfold bind at 1. rewrite dump_complaints_eq by reflexivity.
  rewrite M2. reflexivity.
Qed.

Lemma request_heading_sound st r st' :
  pending st = [] -> parse_request_heading st = (Val r, st') ->
  exists es ids w,
    request_heading_on_wire (rq_method r) (rq_target r) (rq_version r) es ids w /\
    rq_msg r = mkMessage es [] (Unavail None) (pos st) (place_notes RequestHeading ids) /\
    moved st w [] st'.
Proof.
  intros P H. unfold parse_request_heading in H. rewrite bind_tell in H. bind_cases H.
  destruct (readline_sound H1) as (b & L & M1).
  destruct (split_on 32 a) as [|x [|y [|z [|? ?]]]] eqn:S; try discriminate.
  destruct (is_http_version z) eqn:V; [|discriminate].
  destruct (split3_sound S) as (-> & Hx & Hy).
  bind_cases H2. bind_cases H3. bind_cases H4.
  destruct (block_sound (moved_settled M1) H0 H2) as (ids & w & Bw & M2).
  pose proof (moved_trans M1 M2) as M. destruct (moved_clear P M) as [N1 N2].
  rewrite dump_complaints_eq in H3 by reflexivity. injection H3 as <- <-.
  injection H5 as <- <-. cbn [rq_method rq_target rq_version rq_msg].
  exists a, (eol_notes b ++ ids), (render_line (mkLine (request_line x y z) b) ++ w).
  split; [|split; [|exact N1]].
  - split; [assumption|]. split; [assumption|]. split; [now apply http_version_iff|].
    exists (mkLine (request_line x y z) b), ids, w. repeat split; auto; apply L.
  - rewrite N2. reflexivity.
Qed.

Lemma response_heading_complete version status reason es ids w st tail :
  response_heading_on_wire version status reason es ids w -> pending st = [] -> rest st = w ++ tail ->
  exists st',
    parse_response_heading st =
      (Val (mkResponse version status reason
              (mkMessage es [] (Unavail None) (pos st) (place_notes ResponseHeading ids))), st') /\
    moved st w [] st' /\ rest st' = tail.
Proof.
  intros (H1 & d & l & ids' & w' & H2 & H3 & H4 & H5 & H6 & -> & ->) P R.
  apply http_version_iff in H1. destruct (proj1 (status_iff _ _) (conj H2 H3)) as [H2' H3'].
  rewrite <- app_assoc in R.
  destruct (readline_complete H5 R) as (st1 & Q1 & Q2 & Q3).
  destruct (block_complete H6 (moved_settled Q2) Q3) as (st2 & st3 & B1 & B2 & B3 & B4).
  pose proof (moved_trans Q2 B3) as M. destruct (moved_clear P M) as [M1 M2].
  exists (clear_pending st3). split; [|auto].
  unfold parse_response_heading. rewrite bind_tell, (bind_val _ Q1), H4.
  rewrite split_2_complete by (auto using is_http_version_nospace, is_status_code_nospace).
  rewrite H1, H2'. cbn [andb].
  rewrite (bind_val _ B1), (bind_val _ B2). unfold bind at 1. rewrite dump_complaints_eq by reflexivity.
  rewrite M2, H3'. reflexivity.
Qed.

Lemma response_heading_sound st r st' :
  pending st = [] -> parse_response_heading st = (Val r, st') ->
  exists es ids w,
    response_heading_on_wire (rs_version r) (rs_status r) (rs_reason r) es ids w /\
    rs_msg r = mkMessage es [] (Unavail None) (pos st) (place_notes ResponseHeading ids) /\
    moved st w [] st'.
Proof.
  intros P H. unfold parse_response_heading in H. rewrite bind_tell in H. bind_cases H.
  destruct (readline_sound H1) as (b & L & M1).
  destruct (split_on_2 32 a) as [|x [|y [|z [|? ?]]]] eqn:S; try discriminate.
  destruct (is_http_version x && is_status_code y) eqn:V; [|discriminate].
  apply andb_true_iff in V. destruct V as [V1 V2].
  apply split_2_sound in S. subst a.
  bind_cases H2. bind_cases H3. bind_cases H4.
  destruct (block_sound (moved_settled M1) H0 H2) as (ids & w & Bw & M2).
  pose proof (moved_trans M1 M2) as M. destruct (moved_clear P M) as [N1 N2].
  rewrite dump_complaints_eq in H3 by reflexivity. injection H3 as <- <-.
  injection H5 as <- <-. cbn [rs_version rs_status rs_reason rs_msg].
  exists a, (eol_notes b ++ ids), (render_line (mkLine (status_line x y z) b) ++ w).
  split; [|split; [|exact N1]].
  - split; [now apply http_version_iff|].
    destruct (proj2 (@status_iff y _) (conj V2 eq_refl)) as [D1 D2].
    exists y, (mkLine (status_line x y z) b), ids, w. repeat split; auto; apply L.
  - rewrite N2. reflexivity.
Qed.

(** * Reading a counted number of bytes *)

Lemma read_complete st b tail :
  rest st = b ++ tail ->
  exists st', read (Z.of_N (lenN b)) st = (Val b, st') /\ moved st b [] st' /\ rest st' = tail.
Proof.
  intro R. exists (after_read st (lenN b) tail). split; [|split; [|reflexivity]].
  - unfold read. replace (Z.of_N (lenN b) <? -1)%Z with false by lia.
    replace (Z.of_N (lenN b) =? -1)%Z with false by lia.
    rewrite N2Z.id, R, takeN_exact. cbv zeta. rewrite Z.ltb_irrefl. reflexivity.
  - constructor; simpl; auto. now rewrite app_nil_r.
Qed.

Lemma read_sound n st b st' :
  (0 <= n)%Z -> read n st = (Val b, st') -> lenN b = Z.to_N n /\ moved st b [] st'.
Proof.
  intros L H. apply read_cases in H.
  destruct H as [(H1 & H2 & _)|(r & H1 & [H2 H2'] & H3 & H4 & H5 & H5' & H5'' & H6)]; [discriminate|].
  destruct H6 as [(K1 & K2 & K3)|(e & K1 & _)]; [|discriminate]. injection K1 as <-.
  split.
  - destruct (Z.eq_dec n 0) as [->|N0]; [|apply K3; lia]. specialize (H5' L). lia.
  - constructor; auto. rewrite H4. now rewrite app_nil_r.
Qed.

(** * Chunks *)

Lemma partition_chunk c :
  ~ In 59 (c_size c) ->
  match partition_at 59 (text (c_line c)) with Some (a, _) => a | None => text (c_line c) end = c_size c.
Proof.
  intro H. unfold c_line. cbn [text]. destruct (c_ext c) as [x|].
  - now rewrite partition_at_app.
  - rewrite app_nil_r. destruct (partition_at 59 (c_size c)) as [[a b]|] eqn:P; [|reflexivity].
    apply partition_at_some in P. destruct P as [P _]. exfalso. apply H. rewrite P.
    apply in_or_app. right. now left.
Qed.

Lemma parse_chunk_complete c cur st tail :
  chunk_ok c -> cur + lenN (c_data c) <= 1073741824 -> rest st = render_chunk c ++ tail ->
  exists st', parse_chunk cur st = (Val (Some (c_data c)), st') /\
    moved st (render_chunk c) (chunk_notes c) st' /\ rest st' = tail.
Proof.
  intros (H1 & H2 & H3 & H4) L R. unfold render_chunk in R. rewrite <- !app_assoc in R.
  destruct (readline_complete H2 R) as (st1 & Q1 & Q2 & Q3).
  destruct (read_complete Q3) as (st2 & P1 & P2 & P3).
  destruct (readlineend_complete P3) as (st3 & N1 & N2 & N3).
  exists st3. split; [|split; [|assumption]].
  - unfold parse_chunk. rewrite bind_tell, (bind_val _ Q1). cbv zeta.
    rewrite (partition_chunk H1), H3.
    assert (Z.of_N (lenN (c_data c)) =? 0 = false)%Z as ->.
    { destruct (c_data c); [congruence|]. cbn [lenN]. lia. }
    assert (MAX_BODY_SIZE <? Z.of_N (lenN (c_data c)) + Z.of_N cur = false)%Z as ->.
    { unfold MAX_BODY_SIZE. lia. }
    rewrite (bind_val _ P1), (bind_val _ N1). reflexivity.
  - pose proof (moved_trans Q2 (moved_trans P2 N2)) as M. exact M.
Qed.

Lemma parse_last_complete c cur st tail :
  ~ In 59 (c_size c) -> line_ok (c_line c) -> chunk_size (c_size c) 0 ->
  rest st = render_line (c_line c) ++ tail ->
  exists st', parse_chunk cur st = (Val None, st') /\
    moved st (render_line (c_line c)) (line_notes (c_line c)) st' /\ rest st' = tail.
Proof.
  intros H1 H2 H3 R.
  destruct (readline_complete H2 R) as (st1 & Q1 & Q2 & Q3).
  exists st1. split; [|auto].
  unfold parse_chunk. rewrite bind_tell, (bind_val _ Q1). cbv zeta.
  rewrite (partition_chunk H1), H3. reflexivity.
Qed.

Lemma line_as_chunk l b :
  exists c, ~ In 59 (c_size c) /\ c_line c = mkLine l b /\
    match partition_at 59 l with Some (a, _) => a | None => l end = c_size c.
Proof.
  destruct (partition_at 59 l) as [[a x]|] eqn:P.
  - apply partition_at_some in P. destruct P as [-> P].
    exists (mkChunk a (Some x) b [] true). auto.
  - apply partition_at_none in P. exists (mkChunk l None b [] true). cbn.
    unfold c_line. cbn. rewrite app_nil_r. auto.
Qed.

Lemma parse_chunk_sound cur st o st' :
  parse_chunk cur st = (Val o, st') ->
  match o with
  | Some d => exists c, chunk_ok c /\ c_data c = d /\ cur + lenN d <= 1073741824 /\
                        moved st (render_chunk c) (chunk_notes c) st'
  | None => exists c, ~ In 59 (c_size c) /\ line_ok (c_line c) /\ chunk_size (c_size c) 0 /\
                      moved st (render_line (c_line c)) (line_notes (c_line c)) st'
  end.
Proof.
  intro H. unfold parse_chunk in H. rewrite bind_tell in H. bind_cases H.
  destruct (readline_sound H1) as (b & L & M1). cbv zeta in H2.
  destruct (line_as_chunk a b) as (c & C1 & C2 & C3). rewrite C3 in H2.
  rewrite <- C2 in L, M1. change (eol_notes b) with (line_notes (mkLine a b)) in M1. rewrite <- C2 in M1.
  destruct (py_int16 (rstrip (c_size c))) as [size|] eqn:PI; [|discriminate].
  destruct (size =? 0)%Z eqn:Z0.
  - injection H2 as <- <-. exists c. repeat split; auto; try apply L; try apply M1.
    unfold chunk_size. rewrite PI. f_equal. lia.
  - destruct (MAX_BODY_SIZE <? size + Z.of_N cur)%Z eqn:ZM; [discriminate|].
    bind_cases H2. bind_cases H3. injection H4 as <- <-.
    destruct (Z.le_gt_cases 0 size) as [Zp|Zn].
    + destruct (read_sound Zp H0) as [Ln M2]. destruct (readlineend_sound H2) as (b2 & M3).
      exists (mkChunk (c_size c) (c_ext c) (c_crlf c) a0 b2). cbn [c_data]. repeat split; auto; try apply L.
      * unfold chunk_size. cbn. rewrite PI. f_equal. lia.
      * intro K. cbn in K. subst a0. cbn in Ln. lia.
      * unfold MAX_BODY_SIZE in ZM. lia.
      * pose proof (moved_trans M1 (moved_trans M2 M3)) as M. apply M.
      * pose proof (moved_trans M1 (moved_trans M2 M3)) as M. apply M.
      * pose proof (moved_trans M1 (moved_trans M2 M3)) as M. apply M.
      * pose proof (moved_trans M1 (moved_trans M2 M3)) as M. apply M.
      * pose proof (moved_trans M1 (moved_trans M2 M3)) as M. apply M.
    + exfalso. apply read_cases in H0.
      destruct H0 as [(K & K2 & _)|(r & K & _ & _ & _ & K5 & _)]; [discriminate|].
      assert (rest st0 = []) as R0 by (apply K5; lia).
      destruct (readlineend_sound H2) as (b2 & M3). apply mv_rest in M3. rewrite R0 in M3.
      destruct b2; discriminate.
Qed.

Lemma render_chunk_pos c : (0 < List.length (render_chunk c))%nat.
Proof. unfold render_chunk. rewrite app_length. pose proof (render_length_pos (c_line c)). lia. Qed.

Lemma chunks_loop_complete last cs : forall fuel acc st tail,
  Forall chunk_ok cs -> lenN acc + lenN (flat_map c_data cs) <= 1073741824 ->
  ~ In 59 (c_size last) -> line_ok (c_line last) -> chunk_size (c_size last) 0 ->
  rest st = flat_map render_chunk cs ++ render_line (c_line last) ++ tail ->
  (List.length (rest st) < fuel)%nat ->
  exists st', chunks_loop fuel acc st = (Val (acc ++ flat_map c_data cs), st') /\
    moved st (flat_map render_chunk cs ++ render_line (c_line last))
             (flat_map chunk_notes cs ++ line_notes (c_line last)) st' /\ rest st' = tail.
Proof.
  induction cs as [|c cs IH]; intros fuel acc st tail F L H1 H2 H3 R Fu;
    (destruct fuel as [|fuel]; [lia|]); cbn [chunks_loop].
  - cbn in R. destruct (@parse_last_complete last (lenN acc) st tail H1 H2 H3 R) as (st1 & P1 & P2 & P3).
    exists st1. rewrite (bind_val _ P1). cbn [flat_map app]. rewrite app_nil_r. auto.
  - inversion F as [|? ? Hc F']; subst. cbn [flat_map] in *. rewrite lenN_app in L.
    rewrite <- !app_assoc in R.
    destruct (@parse_chunk_complete c (lenN acc) st _ Hc ltac:(lia) R) as (st1 & P1 & P2 & P3).
    rewrite (bind_val _ P1).
    destruct (IH fuel (acc ++ c_data c) st1 tail) as (st2 & Q1 & Q2 & Q3); auto.
    { rewrite lenN_app. lia. }
    { rewrite (mv_rest P2), app_length in Fu. pose proof (render_chunk_pos c). lia. }
    exists st2. split; [|split; [|assumption]].
    + rewrite Q1. now rewrite <- app_assoc.
    + pose proof (moved_trans P2 Q2) as M. rewrite !app_assoc in *. exact M.
Qed.

Lemma chunks_loop_sound : forall fuel acc st data st',
  lenN acc <= 1073741824 ->
  chunks_loop fuel acc st = (Val data, st') ->
  exists cs last, Forall chunk_ok cs /\ data = acc ++ flat_map c_data cs /\ lenN data <= 1073741824 /\
    ~ In 59 (c_size last) /\ line_ok (c_line last) /\ chunk_size (c_size last) 0 /\
    moved st (flat_map render_chunk cs ++ render_line (c_line last))
             (flat_map chunk_notes cs ++ line_notes (c_line last)) st'.
Proof.
  induction fuel as [|fuel IH]; intros acc st data st' L H; [discriminate|]. cbn [chunks_loop] in H.
  bind_cases H. apply parse_chunk_sound in H1. destruct a as [d|].
  - destruct H1 as (c & C1 & C2 & C3 & M1).
    assert (lenN (acc ++ d) <= 1073741824) as L' by (rewrite lenN_app; lia).
    destruct (IH _ _ _ _ L' H2) as (cs & last & F & -> & Ld & K1 & K2 & K3 & M2).
    exists (c :: cs), last. cbn [flat_map]. rewrite C2.
    split; [auto|]. split; [now rewrite <- app_assoc|]. split; [assumption|].
    split; [assumption|]. split; [assumption|]. split; [assumption|].
    pose proof (moved_trans M1 M2) as M. rewrite <- !app_assoc. exact M.
  - injection H2 as <- <-. destruct H1 as (c & C1 & C2 & C3 & M1).
    exists [], c. cbn [flat_map app]. rewrite app_nil_r. repeat split; auto; try apply C2; apply M1.
Qed.

Lemma chunked_framing_complete payload tr ids w st tail :
  chunked_on_wire payload tr ids w -> rest st = w ++ tail ->
  exists st', chunked_framing st = (Val (payload, tr), st') /\ moved st w ids st' /\ rest st' = tail.
Proof.
  intros (cs & last & ids' & w' & H1 & -> & H3 & H4 & H5 & H6 & H7 & -> & ->) R.
  rewrite <- !app_assoc in R.
  destruct (@chunks_loop_complete last cs (S (List.length (rest st))) [] st (w' ++ tail))
    as (st1 & P1 & P2 & P3); auto.
  destruct (block_complete H7 (moved_settled P2) P3) as (st2 & st3 & B1 & B2 & B3 & B4).
  exists st3. split; [|split; [|assumption]].
  - unfold chunked_framing. unfold bind at 1. unfold parse_chunks. rewrite P1.
    rewrite (bind_val _ B1), (bind_val _ B2). reflexivity.
  - pose proof (moved_trans P2 B3) as M. rewrite <- !app_assoc in M. exact M.
Qed.

Lemma chunked_framing_sound st payload tr st' :
  chunked_framing st = (Val (payload, tr), st') ->
  exists ids w, chunked_on_wire payload tr ids w /\ moved st w ids st'.
Proof.
  intro H. unfold chunked_framing in H. bind_cases H. bind_cases H2. bind_cases H3.
  injection H4 as <- <- <-.
  unfold parse_chunks in H1. apply chunks_loop_sound in H1; [|vm_compute; discriminate].
  destruct H1 as (cs & last & F & -> & Ld & K1 & K2 & K3 & M1).
  destruct (block_sound (moved_settled M1) H0 H2) as (ids & w & Bw & M2).
  eexists _, _. split; [|exact (moved_trans M1 M2)].
  exists cs, last, ids, w. cbn [app] in *. repeat split; auto; try apply K2; now rewrite <- !app_assoc.
Qed.

(** [parse_chunked] when the framing is good. *)
Lemma parse_chunked_val m st m' st' :
  pending st = [] ->
  (forall id, existsb (note_eqb (mkNote id (CtxPlace ChunkedFraming))) (notes m) = false) ->
  parse_chunked m st = (Val m', st') -> body_okay (mbody m') = true ->
  exists payload tr ids w,
    chunked_on_wire payload tr ids w /\ moved st w [] st' /\
    m' = mkMessage (entries m) tr (Body payload) (offset m)
           (notes m ++ place_notes ChunkedFraming ids).
Proof.
  intros P N H B. unfold parse_chunked in H.
  destruct (chunked_framing st) as [[[payload tr]|e|z| |] st1] eqn:C; try discriminate.
  - destruct (chunked_framing_sound C) as (ids & w & Cw & M).
    destruct (moved_clear P M) as [M1 M2].
    rewrite dump_complaints_eq in H by assumption. injection H as <- <-.
    exists payload, tr, ids, w. split; [assumption|]. split; [assumption|]. now rewrite M2.
  - injection H as <- <-. discriminate.
  - injection H as <- <-. discriminate.
Qed.

Lemma parse_chunked_complete m payload tr ids w st tail :
  pending st = [] ->
  (forall id, existsb (note_eqb (mkNote id (CtxPlace ChunkedFraming))) (notes m) = false) ->
  chunked_on_wire payload tr ids w -> rest st = w ++ tail ->
  exists st', parse_chunked m st =
      (Val (mkMessage (entries m) tr (Body payload) (offset m)
              (notes m ++ place_notes ChunkedFraming ids)), st') /\
    moved st w [] st' /\ rest st' = tail.
Proof.
  intros P N C R. destruct (chunked_framing_complete C R) as (st1 & H1 & H2 & H3).
  destruct (moved_clear P H2) as [M1 M2].
  exists (clear_pending st1). split; [|auto]. unfold parse_chunked. rewrite H1.
  rewrite dump_complaints_eq by assumption. now rewrite M2.
Qed.

(** * Codings *)

Lemma decode_gzip_case E c m b :
  ci_eqb c (s "gzip") = true \/ ci_eqb c (s "x-gzip") = true -> mbody m = Body b ->
  forall b', gunzip E b = Some b' ->
  decode_transfer_coding E (Some c) m = set_body (Body b') m.
Proof.
  intros H Hb b' G. unfold decode_transfer_coding, coding_is.
  assert (ci_eqb c (s "chunked") = false /\ ci_eqb c (s "deflate") = false /\
          ci_eqb c (s "gzip") || ci_eqb c (s "x-gzip") = true) as (K1 & K2 & K3).
  { destruct H as [H|H]; rewrite H; apply ci_eqb_eq in H;
      (split; [|split; [|auto using orb_true_r]]); apply str_eqb_neq; rewrite H; discriminate. }
  rewrite K1, K2, K3, Hb, G. reflexivity.
Qed.

Lemma decode_deflate_case E c m b :
  ci_eqb c (s "deflate") = true -> mbody m = Body b ->
  forall b', inflate E b = Some b' ->
  decode_transfer_coding E (Some c) m = set_body (Body b') m.
Proof.
  intros H Hb b' G. unfold decode_transfer_coding, coding_is.
  assert (ci_eqb c (s "chunked") = false) as K1.
  { apply ci_eqb_eq in H. apply str_eqb_neq; rewrite H; discriminate. }
  rewrite K1, H, orb_true_r, Hb, G. reflexivity.
Qed.

Lemma decode_codings_complete E cs b b' : decodes E cs b b' ->
  forall m, mbody m = Body b -> decode_codings E cs m = set_body (Body b') m.
Proof.
  induction 1 as [b|c cs b b1 b2 Hc G D IH|c cs b b1 b2 Hc G D IH]; intros m Hb; cbn [decode_codings].
  - destruct m; cbn in *. now subst.
  - rewrite Hb. cbn [body_okay]. rewrite (decode_gzip_case Hc Hb G). rewrite IH by reflexivity. reflexivity.
  - rewrite Hb. cbn [body_okay]. rewrite (decode_deflate_case Hc Hb G). rewrite IH by reflexivity. reflexivity.
Qed.

Lemma decode_step E c m b b' :
  mbody m = Body b -> mbody (decode_transfer_coding E c m) = Body b' ->
  exists x, c = Some x /\
   (((ci_eqb x (s "gzip") = true \/ ci_eqb x (s "x-gzip") = true) /\ gunzip E b = Some b') \/
    (ci_eqb x (s "deflate") = true /\ inflate E b = Some b')) /\
   decode_transfer_coding E c m = set_body (Body b') m.
Proof.
  intros Hb H. unfold decode_transfer_coding in *.
  destruct (coding_is "chunked" c) eqn:K1; [discriminate|].
  destruct (coding_is "gzip" c || coding_is "x-gzip" c || coding_is "deflate" c) eqn:K2.
  2:{ destruct c; discriminate. }
  destruct c as [x|]; [|discriminate]. exists x. split; [reflexivity|]. rewrite Hb in *.
  unfold coding_is in *. destruct (ci_eqb x (s "deflate")) eqn:K3.
  - destruct (inflate E b) as [y|]; [|discriminate]. injection H as ->. auto.
  - rewrite orb_false_r in K2. apply orb_true_iff in K2.
    destruct (gunzip E b) as [y|]; [|discriminate]. injection H as ->. auto.
Qed.

Lemma decode_codings_unavail E cs m : body_okay (mbody m) = false -> decode_codings E cs m = m.
Proof. destruct cs; cbn; [reflexivity|]. now intros ->. Qed.

Lemma decode_codings_sound E cs : forall m b b',
  mbody m = Body b -> mbody (decode_codings E cs m) = Body b' ->
  decodes E cs b b' /\ decode_codings E cs m = set_body (Body b') m.
Proof.
  induction cs as [|c cs IH]; intros m b b' Hb H; cbn [decode_codings] in *.
  - rewrite Hb in H. injection H as <-. split; [constructor|]. destruct m; cbn in *. now subst.
  - rewrite Hb in *. cbn [body_okay] in *.
    destruct (mbody (decode_transfer_coding E c m)) as [b1|i] eqn:D.
    + destruct (decode_step Hb D) as (x & -> & Hx & Ex). destruct (IH _ _ _ D H) as [I1 I2].
      split.
      * destruct Hx as [[K1 K2]|[K1 K2]]; [eapply dec_gzip|eapply dec_deflate]; eauto.
      * rewrite I2, Ex. reflexivity.
    + rewrite decode_codings_unavail in H by (now rewrite D). congruence.
Qed.

(** * The framing fields *)

Lemma is_field_named name e : is_field name e = true <-> named name e.
Proof. unfold is_field, named. rewrite ci_eqb_eq. split; congruence. Qed.

Lemma te_value_iff E es : forall cs, transfer_codings E es cs <-> te_value E es = cs.
Proof.
  unfold te_value. induction es as [|e es IH]; intro cs; cbn [flat_map].
  - split; [now inversion 1|intros <-; constructor].
  - destruct (is_field "Transfer-Encoding" e) eqn:F.
    + pose proof F as F'. apply is_field_named in F'. split.
      * inversion 1; subst; [contradiction| |].
        -- match goal with K : te_parse _ _ = _ |- _ => rewrite K end. f_equal. now apply IH.
        -- match goal with K : te_parse _ _ = _ |- _ => rewrite K end. cbn. f_equal. now apply IH.
      * intros <-. destruct (te_parse E (snd e)) eqn:P.
        -- apply tc_parsed; auto. now apply IH.
        -- cbn. apply tc_malformed; auto. now apply IH.
    + assert (~ named "Transfer-Encoding" e) as F'.
      { intro K. apply is_field_named in K. congruence. }
      split.
      * inversion 1; subst; [|contradiction|contradiction]. now apply IH.
      * intro H. apply tc_other; auto. now apply IH.
Qed.

Lemma filter_last {A} (f : A -> bool) l e r :
  rev (filter f l) = e :: r <->
  exists pre post, l = pre ++ e :: post /\ f e = true /\ Forall (fun x => f x = false) post /\
                   filter f pre = rev r.
Proof.
  split.
  - revert e r. induction l as [|x l IH] using rev_ind; intros e r; [discriminate|].
    rewrite filter_app. cbn. destruct (f x) eqn:F.
    + rewrite rev_app_distr. cbn. intro H. injection H as <- <-.
      exists l, []. rewrite rev_involutive. auto.
    + rewrite app_nil_r. intro H. destruct (IH _ _ H) as (pre & post & -> & H1 & H2 & H3).
      exists pre, (post ++ [x]). rewrite <- app_assoc. repeat split; auto. apply Forall_app. auto.
  - intros (pre & post & -> & H1 & H2 & H3). rewrite filter_app. cbn. rewrite H1, H3.
    assert (filter f post = []) as ->.
    { induction H2 as [|x post Hx F IH]; [reflexivity|]. cbn. now rewrite Hx. }
    rewrite rev_app_distr. cbn. now rewrite rev_involutive.
Qed.

Lemma absent_filter name es : absent name es <-> filter (is_field name) es = [].
Proof.
  unfold absent. split.
  - induction 1 as [|e es H F IH]; [reflexivity|]. cbn. destruct (is_field name e) eqn:K; [|assumption].
    apply is_field_named in K. contradiction.
  - intro H. apply Forall_forall. intros e I K. apply is_field_named in K.
    assert (In e (filter (is_field name) es)) as J by (apply filter_In; auto). now rewrite H in J.
Qed.

Lemma cl_absent_iff es : absent "Content-Length" es <-> cl_value es = ClAbsent.
Proof.
  rewrite absent_filter. unfold cl_value. split; [now intros ->|].
  destruct (rev (filter (is_field "Content-Length") es)) as [|e l] eqn:R.
  - intros _. apply (f_equal (@rev entry)) in R. now rewrite rev_involutive in R.
  - unfold cl_parse. destruct (_ && _); discriminate.
Qed.

Lemma cl_ok_iff es n : content_length es n <-> cl_value es = ClOk n.
Proof.
  unfold content_length, cl_value. split.
  - intros (pre & e & post & -> & H1 & H2 & H3). apply is_field_named in H1.
    assert (Forall (fun x => is_field "Content-Length" x = false) post) as H2'.
    { eapply Forall_impl; [|exact H2]. intros x K. apply not_true_iff_false. now rewrite is_field_named. }
    assert (rev (filter (is_field "Content-Length") (pre ++ e :: post)) =
            e :: rev (filter (is_field "Content-Length") pre)) as ->.
    { apply filter_last. exists pre, post. now rewrite rev_involutive. }
    apply decimal_iff in H3. destruct H3 as (K1 & K2 & <-). unfold cl_parse.
    destruct (snd e); [congruence|]. cbn [is_nil negb andb]. now rewrite K2.
  - destruct (rev (filter (is_field "Content-Length") es)) as [|e l] eqn:R; [discriminate|].
    apply filter_last in R. destruct R as (pre & post & -> & H1 & H2 & _).
    unfold cl_parse. destruct (_ && _) eqn:D; [|discriminate]. intro K. injection K as <-.
    exists pre, e, post. split; [reflexivity|]. split; [now apply is_field_named|]. split.
    + eapply Forall_impl; [|exact H2]. intros x K J. apply is_field_named in J. congruence.
    + apply andb_true_iff in D. destruct D as [D1 D2]. apply decimal_iff. split; [|auto].
      intro K. now rewrite K in D1.
Qed.

(** * Requests *)

Lemma heading_notes_fresh ids id :
  existsb (note_eqb (mkNote id (CtxPlace ChunkedFraming))) (place_notes RequestHeading ids) = false /\
  existsb (note_eqb (mkNote id (CtxPlace ChunkedFraming))) (place_notes ResponseHeading ids) = false.
Proof.
  unfold place_notes. induction (once [] ids) as [|x l [IH1 IH2]]; [auto|]. cbn.
  unfold note_eqb in *. cbn in *. now rewrite !andb_false_r.
Qed.

Lemma coding_is_chunked c : coding_is "chunked" c = true <-> is_chunked c.
Proof.
  unfold is_chunked, coding_is. destruct c as [x|].
  - split; [eauto|]. intros (y & K & H). now injection K as ->.
  - split; [discriminate|]. intros (y & K & _). discriminate.
Qed.

Lemma rev_snoc {A} (l : list A) x y : rev l = x :: y -> l = rev y ++ [x].
Proof. apply rev_cons_snoc. Qed.

Lemma cl_body_complete m n b st tail :
  lenN b = n -> n <= 1073741824 -> rest st = b ++ tail ->
  exists st', process_content_length (Some n) m st = (Val (set_body (Body b) m), st') /\
    moved st b [] st' /\ rest st' = tail.
Proof.
  intros <- L R. destruct (read_complete R) as (st1 & P1 & P2 & P3). exists st1. split; [|auto].
  unfold process_content_length.
  replace (MAX_BODY_SIZE <? Z.of_N (lenN b))%Z with false by (unfold MAX_BODY_SIZE; lia).
  now rewrite P1.
Qed.

Lemma cl_body_sound m n st m' st' :
  process_content_length (Some n) m st = (Val m', st') -> body_okay (mbody m') = true ->
  exists b, lenN b = n /\ n <= 1073741824 /\ m' = set_body (Body b) m /\ moved st b [] st'.
Proof.
  unfold process_content_length. destruct (MAX_BODY_SIZE <? Z.of_N n)%Z eqn:L.
  { intro H. injection H as <- <-. discriminate. }
  destruct (read (Z.of_N n) st) as [[b|e|z| |] st1] eqn:R; intro H; try discriminate.
  - injection H as <- <-. intros _. destruct (read_sound (N2Z.is_nonneg n) R) as [K1 K2].
    exists b. rewrite K1, N2Z.id. unfold MAX_BODY_SIZE in L. repeat split; try apply K2; lia.
  - injection H as <- <-. discriminate.
Qed.

Definition fresh_notes (m : message) : Prop :=
  forall id, existsb (note_eqb (mkNote id (CtxPlace ChunkedFraming))) (notes m) = false.

Lemma place_notes_nil p : place_notes p [] = [].
Proof. reflexivity. Qed.

Lemma request_body_complete E es b tr ids w m st tail :
  request_body_on_wire E es b tr ids w -> entries m = es -> trailer m = [] ->
  pending st = [] -> settled st -> fresh_notes m -> rest st = w ++ tail ->
  exists st', parse_request_body E m st =
      (Val (mkMessage es tr (Body b) (offset m) (notes m ++ place_notes ChunkedFraming ids)), st') /\
    moved st w [] st' /\ rest st' = tail.
Proof.
  intros H Es Tr P S N R. unfold parse_request_body. rewrite Es.
  destruct H as [T C|n b T C L1 L2|codings c payload b tr ids w T C Cw D];
    try apply te_value_iff in T; try apply cl_absent_iff in C; try apply cl_ok_iff in C.
  - rewrite T, C. cbn [rev]. exists st. rewrite place_notes_nil, app_nil_r. split.
    + unfold ret, set_body. now rewrite Es, Tr.
    + split; [now apply moved_nil|assumption].
  - rewrite T, C. cbn [rev]. rewrite place_notes_nil, app_nil_r. destruct (n =? 0) eqn:Z0.
    + assert (b = []) as -> by (destruct b; [reflexivity|cbn in L2; lia]).
      exists st. unfold ret, set_body. rewrite Es, Tr. split; [reflexivity|].
      split; [now apply moved_nil|assumption].
    + destruct (cl_body_complete m L2 L1 R) as (st1 & Q1 & Q2 & Q3). exists st1. split; [|auto].
      rewrite Q1. unfold set_body. now rewrite Es, Tr.
  - rewrite T, rev_app_distr. cbn [rev app]. apply coding_is_chunked in C. rewrite C.
    destruct (parse_chunked_complete P N Cw R) as (st1 & Q1 & Q2 & Q3). exists st1. split; [|auto].
    rewrite (bind_val _ Q1). unfold ret. rewrite (decode_codings_complete D) by reflexivity.
    unfold set_body. cbn. now rewrite Es.
Qed.

Lemma request_body_sound E m st m' st' :
  trailer m = [] -> pending st = [] -> settled st -> fresh_notes m ->
  parse_request_body E m st = (Val m', st') -> body_okay (mbody m') = true ->
  exists b tr ids w,
    request_body_on_wire E (entries m) b tr ids w /\ moved st w [] st' /\
    m' = mkMessage (entries m) tr (Body b) (offset m) (notes m ++ place_notes ChunkedFraming ids).
Proof.
  intros Tr P S N H B. unfold parse_request_body in H.
  destruct (rev (te_value E (entries m))) as [|c rcs] eqn:T.
  - assert (te_value E (entries m) = []) as T'.
    { rewrite <- (rev_involutive (te_value E (entries m))), T. reflexivity. }
    destruct (cl_value (entries m)) as [| |n] eqn:C.
    + injection H as <- <-. exists [], [], [], []. split; [constructor; [now apply te_value_iff|now apply cl_absent_iff]|]. split; [now apply moved_nil|].
      unfold set_body. now rewrite Tr, place_notes_nil, app_nil_r.
    + injection H as <- <-. discriminate.
    + destruct (n =? 0) eqn:Z0.
      * injection H as <- <-. exists [], [], [], []. split.
        { eapply rqb_length; [now apply te_value_iff|apply cl_ok_iff; eauto|lia|cbn; lia]. }
        split; [now apply moved_nil|]. unfold set_body. now rewrite Tr, place_notes_nil, app_nil_r.
      * destruct (cl_body_sound H B) as (b & L1 & L2 & -> & M).
        exists b, [], [], b. split; [eapply rqb_length; eauto; [now apply te_value_iff|now apply cl_ok_iff]|]. split; [assumption|].
        unfold set_body. now rewrite Tr, place_notes_nil, app_nil_r.
  - apply rev_snoc in T. destruct (coding_is "chunked" c) eqn:C.
    + bind_cases H. injection H2 as <- <-.
      destruct (body_okay (mbody a)) eqn:B1.
      2:{ rewrite decode_codings_unavail in B by assumption. congruence. }
      destruct (parse_chunked_val P N H1 B1) as (payload & tr & ids & w & Cw & M & ->).
      destruct (mbody (decode_codings E rcs _)) as [b|i] eqn:D; [|discriminate].
      apply decode_codings_sound with (b := payload) in D; [|reflexivity]. destruct D as [D1 D2].
      exists b, tr, ids, w. split; [|split; [assumption|]].
      * eapply rqb_chunked; [apply te_value_iff; eassumption|now apply coding_is_chunked|eassumption|]. now rewrite rev_involutive.
      * rewrite D2. reflexivity.
    + injection H as <- <-. discriminate.
Qed.

Theorem request_complete E r w st tail :
  request_on_wire E (pos st) r w -> pending st = [] -> rest st = w ++ tail ->
  exists st', parse_request E st = (Val (inl r), st') /\ moved st w [] st' /\ rest st' = tail.
Proof.
  intros (es & b & tr & ids1 & ids2 & w1 & w2 & H1 & H2 & -> & H3) P R. rewrite <- app_assoc in R.
  destruct (request_heading_complete H1 P R) as (st1 & Q1 & Q2 & Q3).
  set (m := mkMessage es [] (Unavail None) (pos st) (place_notes RequestHeading ids1)) in *.
  assert (pending st1 = []) as P1 by (rewrite (mv_pending Q2), P; reflexivity).
  destruct (@request_body_complete E es b tr ids2 w2 m st1 tail H2 eq_refl eq_refl P1 (moved_settled Q2))
    as (st2 & K1 & K2 & K3); auto.
  { intro id. apply heading_notes_fresh. }
  exists st2. split; [|split; [exact (moved_trans Q2 K2)|assumption]].
  unfold parse_request. rewrite Q1. cbn [rq_msg]. rewrite (bind_val _ K1). unfold ret, set_rq_msg. cbn.
  destruct r as [x y z msg]. cbn in *. now rewrite H3.
Qed.

Theorem request_sound E st r st' :
  pending st = [] -> parse_request E st = (Val (inl r), st') -> body_okay (mbody (rq_msg r)) = true ->
  exists w, request_on_wire E (pos st) r w /\ moved st w [] st'.
Proof.
  intros P H B. unfold parse_request in H.
  destruct (parse_request_heading st) as [[q|e|z| |] st1] eqn:H1; try discriminate.
  bind_cases H. injection H2 as <- <-.
  destruct (request_heading_sound P H1) as (es & ids & w & Hw & Hm & M1).
  assert (pending st1 = []) as P1 by (rewrite (mv_pending M1), P; reflexivity).
  rewrite Hm in H0. cbn [set_rq_msg rq_msg] in B.
  apply request_body_sound in H0; auto.
  - destruct H0 as (b & tr & ids2 & w2 & Bw & M2 & ->). cbn in Bw.
    exists (w ++ w2). split; [|exact (moved_trans M1 M2)].
    exists es, b, tr, ids, ids2, w, w2. split; [exact Hw|]. auto.
  - eapply moved_settled; eauto.
  - intro id. apply heading_notes_fresh.
Qed.

(** * Responses *)

Lemma method_is_iff name req :
  method_is name req = true <-> exists r, req = Some r /\ rq_method r = s name.
Proof.
  unfold method_is. destruct req as [r|].
  - rewrite str_eqb_eq. split; [eauto|]. intros (r' & K & H). now injection K as ->.
  - split; [discriminate|]. intros (r' & K & _). discriminate.
Qed.

Lemma switches_iff req status :
  switches req status <->
  (status =? 101) || (method_is "CONNECT" req && successful status) = true.
Proof.
  unfold switches, successful. rewrite orb_true_iff, andb_true_iff, method_is_iff. split.
  - intros [->|[H1 H2]]; [now left|right]. split; [assumption|]. lia.
  - intros [H|[H1 H2]]; [left; lia|right]. split; [lia|assumption].
Qed.

Lemma bodiless_iff req status :
  bodiless req status <->
  informational status || ((status =? 204) || (status =? 304)) || method_is "HEAD" req = true.
Proof.
  unfold bodiless, informational. rewrite !orb_true_iff, method_is_iff. split.
  - intros [H|[->|[->|H]]]; [left; left; lia|auto|auto|auto].
  - intros [[H|[H|H]]|H]; [left; lia|right; left; lia|right; right; left; lia|auto].
Qed.

Lemma response_body_complete E req status es b tr ids w last m st tail :
  response_body_on_wire E req status es b tr ids w last -> (last = true -> tail = []) ->
  entries m = es -> trailer m = [] ->
  pending st = [] -> settled st -> fresh_notes m -> rest st = w ++ tail ->
  exists st', parse_response_body E req status m st =
      (Val (mkMessage es tr (Body b) (offset m) (notes m ++ place_notes ChunkedFraming ids)), st') /\
    moved st w [] st' /\ rest st' = tail.
Proof.
  intros H Last Es Tr P S N R. unfold parse_response_body. rewrite Es.
  assert (~ switches req status) as NS by (destruct H; assumption).
  assert ((status =? 101) || (method_is "CONNECT" req && successful status) = false) as NS'.
  { apply not_true_iff_false. rewrite <- switches_iff. assumption. }
  apply orb_false_iff in NS'. destruct NS' as [-> ->].
  set (nb := informational status || _ || _).
  assert (~ bodiless req status -> nb = false) as NB.
  { intro K. apply not_true_iff_false. unfold nb. rewrite <- bodiless_iff. assumption. }
  assert (forall b, rest st = b ++ tail -> tail = [] ->
    exists st', read (-1) st = (Val b, st') /\ moved st b [] st' /\ rest st' = tail) as RA.
  { intros b' R' ->. rewrite app_nil_r in R'. exists (after_read st (lenN b') []). rewrite read_all, R'.
    split; [reflexivity|]. split; [|reflexivity]. constructor; simpl; auto; now rewrite app_nil_r. }
  destruct H as [H1 H2|n b H1 H2 T C L1 L2|codings c payload b tr ids w H1 H2 T C Cw D
                |b H1 H2 T C|codings c payload b H1 H2 T C D];
    try apply te_value_iff in T; try apply cl_absent_iff in C; try apply cl_ok_iff in C.
  - apply bodiless_iff in H2. fold nb in H2. rewrite H2.
    exists st. rewrite place_notes_nil, app_nil_r. split.
    + unfold ret, set_body. now rewrite Es, Tr.
    + split; [now apply moved_nil|assumption].
  - rewrite (NB H2), T, C. cbn [rev]. rewrite place_notes_nil, app_nil_r.
    destruct (cl_body_complete m L2 L1 R) as (st1 & Q1 & Q2 & Q3). exists st1. split; [|auto].
    rewrite Q1. unfold set_body. now rewrite Es, Tr.
  - rewrite (NB H2), T, rev_app_distr. cbn [rev app]. apply coding_is_chunked in C. rewrite C.
    destruct (parse_chunked_complete P N Cw R) as (st1 & Q1 & Q2 & Q3). exists st1. split; [|auto].
    rewrite (bind_val _ Q1). unfold ret. rewrite (decode_codings_complete D) by reflexivity.
    unfold set_body. cbn. now rewrite Es.
  - rewrite (NB H2), T, C. cbn [rev]. rewrite place_notes_nil, app_nil_r.
    destruct (RA b R (Last eq_refl)) as (st1 & Q1 & Q2 & Q3). exists st1. split; [|auto].
    rewrite (bind_val _ Q1). unfold ret, set_body. now rewrite Es, Tr.
  - rewrite (NB H2), T. rewrite rev_app_distr in *. cbn [rev app] in *.
    destruct (coding_is "chunked" c) eqn:K; [apply coding_is_chunked in K; contradiction|].
    destruct (RA payload R (Last eq_refl)) as (st1 & Q1 & Q2 & Q3). exists st1. split; [|auto].
    rewrite (bind_val _ Q1). unfold ret.
    rewrite (decode_codings_complete D) by reflexivity. rewrite place_notes_nil, app_nil_r.
    unfold set_body. cbn. now rewrite Es, Tr.
Qed.

Lemma response_body_sound E req status m st m' st' :
  trailer m = [] -> pending st = [] -> settled st -> fresh_notes m ->
  ~ switches req status ->
  parse_response_body E req status m st = (Val m', st') -> body_okay (mbody m') = true ->
  exists b tr ids w last,
    response_body_on_wire E req status (entries m) b tr ids w last /\ moved st w [] st' /\
    (last = true -> rest st' = []) /\
    m' = mkMessage (entries m) tr (Body b) (offset m) (notes m ++ place_notes ChunkedFraming ids).
Proof.
  intros Tr P S N NS H B. unfold parse_response_body in H.
  assert ((status =? 101) || (method_is "CONNECT" req && successful status) = false) as NS'.
  { apply not_true_iff_false. rewrite <- switches_iff. assumption. }
  apply orb_false_iff in NS'. destruct NS' as [N1 N2]. rewrite N1, N2 in H.
  destruct (informational status || _ || _) eqn:NB.
  { apply bodiless_iff in NB. injection H as <- <-. exists [], [], [], [], false.
    split; [now constructor|]. split; [now apply moved_nil|]. split; [discriminate|].
    unfold set_body. now rewrite Tr, place_notes_nil, app_nil_r. }
  assert (~ bodiless req status) as NB'.
  { intro K. apply bodiless_iff in K. congruence. }
  assert (moved st (rest st) [] (after_read st (lenN (rest st)) [])) as RM.
  { constructor; simpl; auto; now rewrite app_nil_r. }
  destruct (rev (te_value E (entries m))) as [|c rcs] eqn:T.
  - assert (te_value E (entries m) = []) as T'.
    { rewrite <- (rev_involutive (te_value E (entries m))), T. reflexivity. }
    destruct (cl_value (entries m)) as [| |n] eqn:C.
    + unfold bind in H. rewrite read_all in H. injection H as <- <-.
      exists (rest st), [], [], (rest st), true. split; [constructor; auto; [now apply te_value_iff|now apply cl_absent_iff]|]. split; [assumption|].
      split; [reflexivity|]. unfold set_body. now rewrite Tr, place_notes_nil, app_nil_r.
    + injection H as <- <-. discriminate.
    + destruct (cl_body_sound H B) as (b & L1 & L2 & -> & M).
      exists b, [], [], b, false. split; [eapply rsb_length; eauto; [now apply te_value_iff|now apply cl_ok_iff]|]. split; [assumption|].
      split; [discriminate|]. unfold set_body. now rewrite Tr, place_notes_nil, app_nil_r.
  - apply rev_snoc in T. destruct (coding_is "chunked" c) eqn:C.
    + bind_cases H. injection H2 as <- <-.
      destruct (body_okay (mbody a)) eqn:B1.
      2:{ rewrite decode_codings_unavail in B by assumption. congruence. }
      destruct (parse_chunked_val P N H1 B1) as (payload & tr & ids & w & Cw & M & ->).
      destruct (mbody (decode_codings E rcs _)) as [b|i] eqn:D; [|discriminate].
      apply decode_codings_sound with (b := payload) in D; [|reflexivity]. destruct D as [D1 D2].
      exists b, tr, ids, w, false. split; [|split; [assumption|split; [discriminate|]]].
      * eapply rsb_chunked; [assumption|assumption|apply te_value_iff; eassumption|now apply coding_is_chunked|eassumption|]. now rewrite rev_involutive.
      * rewrite D2. reflexivity.
    + unfold bind in H. rewrite read_all in H. injection H as <- <-.
      change (decode_codings E rcs (decode_transfer_coding E c (set_body (Body (rest st)) m)))
        with (decode_codings E (c :: rcs) (set_body (Body (rest st)) m)) in *.
      destruct (mbody (decode_codings E (c :: rcs) (set_body (Body (rest st)) m))) as [b|i] eqn:D.
      2:{ discriminate. }
      apply decode_codings_sound with (b := rest st) in D; [|reflexivity]. destruct D as [D1 D2].
      exists b, [], [], (rest st), true. split; [|split; [assumption|split; [reflexivity|]]].
      * eapply rsb_close_coded; [assumption|assumption|apply te_value_iff; eassumption| |].
        { intro K. apply coding_is_chunked in K. congruence. }
        rewrite rev_app_distr, rev_involutive. exact D1.
      * rewrite D2. unfold set_body. cbn [entries trailer mbody offset notes].
        now rewrite Tr, place_notes_nil, app_nil_r.
Qed.
