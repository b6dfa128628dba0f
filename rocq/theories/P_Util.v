(** Properties C45, C46, C48, C49, C50, C51 and C52: the small functions and
    classes that everything else relies on. *)
From Coq Require Import ZifyBool ZifyNat ZifyN Permutation.
From Verif Require Import Base Text Structure.
Open Scope nat_scope.
Unset Strict Implicit.

(** * C45: printable *)

(** The code points that XML 1.0 section 2.2 does not allow or discourages,
    as ranges. *)
Definition forbidden_ranges : list (N * N) :=
  [(0, 8); (11, 12); (14, 31); (127, 159); (55296, 57343); (64976, 65007); (65534, 65535)]%N.
Definition forbidden (c : N) : Prop := exists a b, In (a, b) forbidden_ranges /\ (a <= c <= b)%N.

Lemma unprintable_spec c : unprintable c = true <-> forbidden c.
Proof.
  unfold unprintable, forbidden, forbidden_ranges. split.
  - intro H. repeat rewrite orb_true_iff in H. rewrite !andb_true_iff in H.
    repeat match goal with H : _ \/ _ |- _ => destruct H as [H|H] end;
    [exists 0%N, 8%N|exists 11%N, 12%N|exists 11%N, 12%N|exists 14%N, 31%N|exists 127%N, 159%N
    |exists 55296%N, 57343%N|exists 64976%N, 65007%N|exists 65534%N, 65535%N|exists 65534%N, 65535%N];
    (split; [cbn; tauto|lia]).
  - intros (a & b & I & H). cbn in I.
    repeat (destruct I as [I|I]; [inversion I; subst; lia|]). destruct I.
Qed.

Theorem C45_printable : forall x,
  List.length (printable x) = List.length x
  /\ (forall i c, nth_error x i = Some c ->
        (forbidden c -> nth_error (printable x) i = Some 65533%N)
        /\ (~ forbidden c -> nth_error (printable x) i = Some c))
  /\ (forall c, In c (printable x) -> ~ forbidden c)
  /\ printable (printable x) = printable x.
Proof.
  intro x.
  assert (R : unprintable replacement = false) by reflexivity.
  split; [apply map_length|]. split; [|split].
  - intros i c H. unfold printable. rewrite nth_error_map, H. cbn. rewrite <- unprintable_spec.
    destruct (unprintable c); split; intro E; try reflexivity; [now destruct E|discriminate].
  - intros c H. apply in_map_iff in H. destruct H as [d [<- _]]. rewrite <- unprintable_spec.
    destruct (unprintable d) eqn:E; [now rewrite R|now rewrite E].
  - unfold printable. rewrite map_map. apply map_ext. intro c. destruct (unprintable c) eqn:E; [now rewrite R|now rewrite E].
Qed.
Print Assumptions C45_printable.
Example C45_example : printable [65; 0; 10; 55300; 66]%N = [65; 65533; 10; 65533; 66]%N.
Proof. reflexivity. Qed.

(** * C46: ellipsize *)

Theorem C46_ellipsize : forall x n, (3 <= n)%Z ->
  (Z.of_nat (List.length (ellipsize x n)) <= n)%Z
  /\ ((Z.of_nat (List.length x) <= n)%Z -> ellipsize x n = x)
  /\ ((n < Z.of_nat (List.length x))%Z ->
      exists prefix rest, x = prefix ++ rest /\ ellipsize x n = prefix ++ s "..."
                          /\ Z.of_nat (List.length (ellipsize x n)) = n).
Proof.
  intros x n Hn. unfold ellipsize. destruct (Z.leb_spec (Z.of_nat (List.length x)) n) as [H|H].
  - split; [assumption|]. split; [reflexivity|]. lia.
  - unfold slice_to. replace (n - 3 <? 0)%Z with false by lia.
    assert (L : List.length (firstn (Z.to_nat (n - 3)) x ++ s "...") = Z.to_nat n).
    { rewrite app_length, firstn_length. change (List.length (s "...")) with 3. lia. }
    rewrite L. split; [lia|]. split; [lia|]. intros _.
    exists (firstn (Z.to_nat (n - 3)) x), (skipn (Z.to_nat (n - 3)) x). rewrite firstn_skipn.
    split; [reflexivity|]. split; [reflexivity|]. lia.
Qed.
Print Assumptions C46_ellipsize.

(** With a smaller limit the slice counts from the end, and the result is
    longer than the string. *)
Theorem C46_small_limit_refuted : exists x n, (Z.of_nat (List.length x) < Z.of_nat (List.length (ellipsize x n)))%Z /\ (n < Z.of_nat (List.length x))%Z.
Proof. exists (s "abcd"), 2%Z. split; reflexivity. Qed.
Print Assumptions C46_small_limit_refuted.
Example C46_example : ellipsize (s "lorem ipsum dolor sit amet") 20 = s "lorem ipsum dolor...".
Proof. reflexivity. Qed.

(** * C48: descriptions of sets of characters *)

(** How a description is read.  Pieces are separated by " or ". *)
Fixpoint split_or (acc x : str) : list str :=
  match x with
  | [] => [rev acc]
  | a :: y =>
      match y with
      | b :: c :: d :: x' =>
          if str_eqb [a; b; c; d] (s " or ") then rev acc :: split_or [] x' else split_or (a :: acc) y
      | _ => split_or (a :: acc) y
      end
  end.
(** The characters from [a] to [b]. *)
Definition upto (a b : N) : list N := map (fun i => (a + N.of_nat i)%N) (seq 0 (N.to_nat (b + 1 - a))).
Definition hex_value (d : N) : N := if (d <? 97)%N then (d - 48)%N else (d - 87)%N.
(** A piece is the name of a character, a hexadecimal code or two with a dash,
    two characters with a dash, or just some characters. *)
Definition read_piece (p : str) : list N :=
  match find (fun e => str_eqb (snd e) p) char_names with
  | Some (c, _) => [c]
  | None =>
      match p with
      | [z; x; h; l] => if str_eqb [z; x] (s "0x") then [(hex_value h * 16 + hex_value l)%N] else p
      | [z; x; h; l; d; z'; x'; h'; l'] =>
          if str_eqb [z; x; d; z'; x'] (s "0x" ++ [endash] ++ s "0x")
          then upto (hex_value h * 16 + hex_value l) (hex_value h' * 16 + hex_value l') else p
      | [a; d; b] => if (d =? endash)%N then upto a b else p
      | _ => p
      end
  end.
Definition read_description (x : str) : list N := flat_map read_piece (split_or [] x).

(** ** Reading back *)

Lemma upto_one a : upto a a = [a].
Proof. unfold upto. replace (N.to_nat (a + 1 - a)) with 1 by lia. cbn. f_equal. lia. Qed.
Lemma upto_snoc a b : (a <= b)%N -> upto a (b + 1) = upto a b ++ [(b + 1)%N].
Proof.
  intro H. unfold upto. replace (N.to_nat (b + 1 + 1 - a)) with (N.to_nat (b + 1 - a) + 1) by lia.
  rewrite seq_app, map_app. cbn [seq map]. f_equal. f_equal. lia.
Qed.

Lemma intervals_spec l : forall cur,
  match cur with Some (lo, hi) => (lo <= hi)%N | None => True end ->
  flat_map (fun i => upto (fst i) (snd i)) (intervals cur l)
  = match cur with Some (lo, hi) => upto lo hi | None => [] end ++ l
  /\ forall i, In i (intervals cur l) -> (fst i <= snd i)%N
       /\ (match cur with Some (lo, hi) => fst i = lo | None => False end \/ In (fst i) l)
       /\ (match cur with Some (lo, hi) => snd i = hi | None => False end \/ In (snd i) l).
Proof.
  induction l as [|c l IH]; intros cur H.
  - destruct cur as [[lo hi]|]; cbn; [|split; [reflexivity|easy]].
    split; [reflexivity|]. intros i [<-|[]]. cbn. auto.
  - destruct cur as [[lo hi]|]; cbn [intervals].
    + destruct (N.eqb_spec (hi + 1) c) as [<-|Hc].
      * destruct (IH (Some (lo, hi + 1))%N) as [E I]; [cbn; lia|]. split.
        -- rewrite E, upto_snoc by assumption. now rewrite <- app_assoc.
        -- intros i Hi. specialize (I i Hi). cbn in *. intuition.
      * destruct (IH (Some (c, c))) as [E I]; [cbn; lia|]. split.
        -- cbn [flat_map]. rewrite E, upto_one. reflexivity.
        -- intros i [<-|Hi]; [cbn; auto|]. specialize (I i Hi). cbn in *. intuition.
    + destruct (IH (Some (c, c))) as [E I]; [cbn; lia|]. split.
      * rewrite E, upto_one. reflexivity.
      * intros i Hi. specialize (I i Hi). cbn in *. intuition.
Qed.

(** No " o" and no space at the end. *)
Fixpoint solid (p : str) : bool :=
  match p with
  | [] => true
  | a :: q => (if (a =? 32)%N then match q with [] => false | b :: _ => negb (b =? 111)%N end else true) && solid q
  end.
Lemma split_skip a b y acc : (a =? 32)%N = false \/ (b =? 111)%N = false ->
  split_or acc (a :: b :: y) = split_or (a :: acc) (b :: y).
Proof.
  intro H. cbn [split_or]. destruct y as [|c [|d y]]; try reflexivity.
  replace (str_eqb [a; b; c; d] (s " or ")) with false; [reflexivity|]. cbn. destruct H as [->| ->]; cbn; [reflexivity|].
  now rewrite andb_false_r.
Qed.
Lemma split_end p : solid p = true -> forall acc, split_or acc p = [rev acc ++ p].
Proof.
  induction p as [|a p IH]; intros H acc; [cbn; now rewrite app_nil_r|].
  cbn [solid] in H. apply andb_true_iff in H. destruct H as [H1 H2].
  destruct p as [|b p].
  - cbn. reflexivity.
  - rewrite split_skip.
    + rewrite IH by assumption. cbn [rev]. now rewrite <- app_assoc.
    + destruct (a =? 32)%N; [right; now apply negb_true_iff|now left].
Qed.
Lemma split_sep p r : solid p = true -> forall acc, split_or acc (p ++ s " or " ++ r) = (rev acc ++ p) :: split_or [] r.
Proof.
  induction p as [|a p IH]; intros H acc; [cbn; now rewrite app_nil_r|].
  cbn [solid] in H. apply andb_true_iff in H. destruct H as [H1 H2]. destruct p as [|b p].
  - change (([a] ++ s " or " ++ r)) with (a :: 32%N :: [111; 114; 32]%N ++ r). rewrite split_skip by now right.
    change (32%N :: [111; 114; 32]%N ++ r) with ([] ++ s " or " ++ r). rewrite IH by reflexivity. cbn [rev]. now rewrite <- app_assoc.
  - cbn [app]. rewrite split_skip.
    + change (b :: p ++ s " or " ++ r) with ((b :: p) ++ s " or " ++ r). rewrite IH by assumption. cbn [rev]. now rewrite <- app_assoc.
    + destruct (a =? 32)%N; [right; now apply negb_true_iff|now left].
Qed.
Lemma join_cons sep (w : str) ws : ws <> [] -> join sep (w :: ws) = w ++ sep ++ join sep ws.
Proof. destruct ws; [easy|reflexivity]. Qed.
Lemma split_join l : (forall p, In p l -> solid p = true) -> split_or [] (join (s " or ") l) = match l with [] => [[]] | _ => l end.
Proof.
  induction l as [|p l IH]; intro H; [reflexivity|]. destruct l as [|q l].
  - cbn [join]. rewrite split_end by (apply H; now left). reflexivity.
  - rewrite join_cons by discriminate. rewrite split_sep by (apply H; now left). rewrite IH by (intros x Hx; apply H; now right). reflexivity.
Qed.

Lemma name_find p : (forall e, In e char_names -> snd e <> p) -> find (fun e => str_eqb (snd e) p) char_names = None.
Proof.
  intro H. destruct (find _ _) as [e|] eqn:E; [|reflexivity]. apply find_some in E. destruct E as [I E].
  apply str_eqb_eq in E. now destruct (H e I).
Qed.
(** Names begin with a letter and have no dash. *)
Lemma names_shape e : In e char_names ->
  match snd e with a :: b :: _ => is_letter a = true /\ (b =? endash)%N = false | _ => False end.
Proof. cbn. intro H. repeat (destruct H as [<-|H]; [cbn; auto|]). destruct H. Qed.

Lemma read_chr c : read_piece [c] = [c].
Proof.
  unfold read_piece. rewrite name_find; [reflexivity|]. intros e He Ee. pose proof (names_shape He) as S. now rewrite Ee in S.
Qed.
Lemma read_chr_range a b : read_piece [a; endash; b] = upto a b.
Proof.
  unfold read_piece. rewrite name_find; [now rewrite N.eqb_refl|]. intros e He Ee. pose proof (names_shape He) as S. rewrite Ee in S.
  destruct S as [_ S]. now rewrite N.eqb_refl in S.
Qed.
Lemma hex_read c : (c < 256)%N -> (hex_value (hex_c (c / 16)) * 16 + hex_value (hex_c (c mod 16)) = c)%N.
Proof.
  intro H.
  assert (V : forall d, (d < 16)%N -> hex_value (hex_c d) = d).
  { intros d Hd. unfold hex_value, hex_c. destruct (N.ltb_spec d 10).
    - replace (48 + d <? 97)%N with true by lia. lia.
    - replace (87 + d <? 97)%N with false by lia. lia. }
  rewrite !V.
  - rewrite N.mul_comm. symmetry. apply N.div_mod. discriminate.
  - apply N.mod_lt. discriminate.
  - apply N.div_lt_upper_bound; [discriminate|lia].
Qed.
Lemma not_name_digit p x : find (fun e => str_eqb (snd e) (48%N :: p)) char_names = x -> x = None.
Proof.
  intros <-. apply name_find. intros e He Ee. pose proof (names_shape He) as S. rewrite Ee in S. destruct p; [easy|].
  destruct S as [S _]. discriminate.
Qed.
Lemma read_hex c : (c < 256)%N -> read_piece (show_hex c) = [c].
Proof.
  intro H. unfold read_piece, show_hex. rewrite (not_name_digit eq_refl). change (str_eqb [48; 120]%N (s "0x")) with true.
  cbv iota. now rewrite hex_read.
Qed.
Lemma read_hex_range a b : (a < 256)%N -> (b < 256)%N -> read_piece (show_hex a ++ [endash] ++ show_hex b) = upto a b.
Proof.
  intros Ha Hb. unfold read_piece, show_hex. cbn [app]. rewrite (not_name_digit eq_refl).
  change (str_eqb [48; 120; endash; 48; 120]%N (s "0x" ++ [endash] ++ s "0x")) with true. cbv iota.
  now rewrite !hex_read.
Qed.

Lemma read_ranges show l : (forall c, In c l -> read_piece (show c) = [c]) ->
  (forall a b, In a l -> In b l -> read_piece (show a ++ [endash] ++ show b) = upto a b) ->
  flat_map read_piece (char_ranges show l) = l.
Proof.
  intros H1 H2. unfold char_ranges. destruct (intervals_spec l (cur:=None) I) as [E K]. cbn [app] in E. rewrite <- E at 2.
  clear E. induction (intervals None l) as [|i is IH]; [reflexivity|]. cbn [map flat_map]. rewrite IH by (intros; apply K; now right).
  f_equal. destruct (K i (or_introl eq_refl)) as (Hi & [[]|Hf] & [[]|Hs]). unfold show_interval.
  destruct (N.eqb_spec (fst i) (snd i)) as [->|]; [now rewrite H1, upto_one|now apply H2].
Qed.

Lemma category_named c n : category_of c = Named n -> char_name c = Some n.
Proof.
  unfold category_of. destruct (is_letter c), (is_digit c); try discriminate.
  destruct (char_name c) as [n'|]; [congruence|]. destruct (_ && _); discriminate.
Qed.
Lemma read_name c n : char_name c = Some n -> read_piece n = [c].
Proof.
  unfold char_name. destruct (find _ _) as [[d m]|] eqn:E; [|discriminate]. cbn. intro H. inversion H; subst.
  apply find_some in E. destruct E as [I Ec]. apply N.eqb_eq in Ec. cbn in Ec. subst d.
  cbn in I. repeat (destruct I as [I|I]; [inversion I; subst; reflexivity|]). destruct I.
Qed.
Lemma read_visible p : (forall c, In c p -> category_of c = Visible) -> read_piece p = p.
Proof.
  intro H. unfold read_piece.
  assert (N0 : forall c, In c p -> is_letter c = false /\ (c =? 48)%N = false /\ (c =? endash)%N = false).
  { intros c Hc. specialize (H c Hc). unfold category_of in H. destruct (is_letter c) eqn:E1; [discriminate|].
    destruct (is_digit c) eqn:E2; [discriminate|]. destruct (char_name c); [discriminate|].
    destruct ((33 <=? c)%N && (c <? 127)%N) eqn:E3; [|discriminate].
    unfold is_digit in E2. unfold endash. repeat split; lia. }
  rewrite name_find.
  - destruct p as [|a [|b [|c [|d p]]]]; try reflexivity.
    + replace (b =? endash)%N with false; [reflexivity|]. symmetry. apply N0. cbn; tauto.
    + assert (E : (a =? 48)%N = false) by (apply N0; now left).
      destruct p as [|e [|f [|g [|i [|j [|k p]]]]]]; try reflexivity.
      * change (s "0x") with [48; 120]%N. cbn [str_eqb]. now rewrite E.
      * change (s "0x" ++ [endash] ++ s "0x") with [48; 120; endash; 48; 120]%N. cbn [str_eqb]. now rewrite E.
  - intros e He Ee. pose proof (names_shape He) as S. rewrite Ee in S. destruct p as [|a [|b p]]; try easy.
    destruct S as [S _]. destruct (N0 a); [now left|]. congruence.
Qed.

Lemma filter_partition (l : list N) :
  Permutation l (letters l ++ digits l ++ named l ++ visibles l ++ others l).
Proof.
  induction l as [|c l IH]; [constructor|].
  unfold letters, digits, named, visibles, others in *. cbn [filter].
  set (L := filter _ l) in *. set (D := filter (fun c => match category_of c with Digit => true | _ => false end) l) in *.
  set (M := filter (fun c => match category_of c with Named _ => true | _ => false end) l) in *.
  set (V := filter (fun c => match category_of c with Visible => true | _ => false end) l) in *.
  set (O := filter (fun c => match category_of c with Other => true | _ => false end) l) in *.
  clearbody L D M V O.
  transitivity (c :: L ++ D ++ M ++ V ++ O); [now constructor|].
  destruct (category_of c).
  - reflexivity.
  - apply Permutation_middle.
  - rewrite (app_assoc L D (M ++ V ++ O)), (app_assoc L D ((c :: M) ++ V ++ O)). apply Permutation_middle.
  - rewrite (app_assoc D M (V ++ O)), (app_assoc L (D ++ M) (V ++ O)), (app_assoc D M ((c :: V) ++ O)), (app_assoc L (D ++ M) ((c :: V) ++ O)).
    apply Permutation_middle.
  - rewrite (app_assoc M V O), (app_assoc D (M ++ V) O), (app_assoc L (D ++ M ++ V) O),
      (app_assoc M V (c :: O)), (app_assoc D (M ++ V) (c :: O)), (app_assoc L (D ++ M ++ V) (c :: O)).
    apply Permutation_middle.
Qed.

Lemma flat_filter_nonempty l : flat_map read_piece (filter nonempty l) = flat_map read_piece l.
Proof. induction l as [|p l IH]; [reflexivity|]. cbn. destruct p; cbn [nonempty]; [exact IH|]. cbn [flat_map]. now rewrite IH. Qed.

Lemma read_names l : flat_map read_piece (map name_of (named l)) = named l.
Proof.
  unfold named. induction l as [|c l IH]; [reflexivity|]. cbn [filter].
  destruct (category_of c) as [| |n| |] eqn:E; try exact IH.
  cbn [map flat_map]. rewrite IH. apply category_named in E. unfold name_of. rewrite E. now rewrite (read_name E).
Qed.

Lemma solid_plain p : (forall c, In c p -> c <> 32%N) -> solid p = true.
Proof.
  induction p as [|a p IH]; intro H; [reflexivity|]. cbn. rewrite IH by (intros; apply H; now right).
  replace (a =? 32)%N with false; [reflexivity|]. symmetry. apply N.eqb_neq. apply H. now left.
Qed.
Lemma category_not_space c k : category_of c = k -> k = Letter \/ k = Digit \/ k = Visible -> c <> 32%N.
Proof. intros <- H ->. vm_compute in H. intuition discriminate. Qed.
Lemma hex_not_space c : hex_c c <> 32%N.
Proof. unfold hex_c. destruct (c <? 10)%N; lia. Qed.

Lemma solid_ranges show l : (forall c, In c l -> forall x, In x (show c) -> x <> 32%N) ->
  forall p, In p (char_ranges show l) -> solid p = true.
Proof.
  intros H p Hp. apply in_map_iff in Hp. destruct Hp as [i [<- Hi]].
  destruct (intervals_spec l (cur:=None) I) as [_ K]. destruct (K i Hi) as (_ & [[]|Hf] & [[]|Hs]).
  apply solid_plain. unfold show_interval. destruct (fst i =? snd i)%N; [now apply H|].
  intros c Hc. apply in_app_or in Hc. destruct Hc as [Hc|Hc]; [now apply (H _ Hf)|].
  apply in_app_or in Hc. destruct Hc as [[<-|[]]|Hc]; [discriminate|now apply (H _ Hs)].
Qed.

Lemma pieces_solid l p : In p (format_pieces l) -> solid p = true.
Proof.
  intro H. apply filter_In in H. destruct H as [H _].
  repeat (apply in_app_or in H; destruct H as [H|H]).
  - revert H. apply solid_ranges. intros c Hc x [<-|[]]. apply filter_In in Hc. destruct Hc as [_ Hc].
    destruct (category_of c) eqn:E; try discriminate. eapply category_not_space; [exact E|tauto].
  - revert H. apply solid_ranges. intros c Hc x [<-|[]]. apply filter_In in Hc. destruct Hc as [_ Hc].
    destruct (category_of c) eqn:E; try discriminate. eapply category_not_space; [exact E|tauto].
  - apply in_map_iff in H. destruct H as [c [<- Hc]]. apply filter_In in Hc. destruct Hc as [_ Hc].
    destruct (category_of c) as [| |n| |] eqn:E; try discriminate. apply category_named in E. unfold name_of. rewrite E.
    unfold char_name in E. destruct (find _ _) as [e|] eqn:F; [|discriminate]. apply find_some in F. destruct F as [F _].
    cbn in E. inversion E; subst. cbn in F. repeat (destruct F as [<-|F]; [reflexivity|]). destruct F.
  - destruct H as [<-|[]]. apply solid_plain. intros c Hc. apply filter_In in Hc. destruct Hc as [_ Hc].
    destruct (category_of c) eqn:E; try discriminate. eapply category_not_space; [exact E|tauto].
  - revert H. apply solid_ranges. intros c Hc x Hx. cbn in Hx.
    destruct Hx as [<-|[<-|[<-|[<-|[]]]]]; try discriminate; apply hex_not_space.
Qed.

Lemma read_format l : (forall c, In c l -> (c < 256)%N) ->
  read_description (format_chars l) = letters l ++ digits l ++ named l ++ visibles l ++ others l.
Proof.
  intro B. unfold read_description, format_chars. rewrite split_join by apply pieces_solid.
  transitivity (flat_map read_piece (format_pieces l)); [destruct (format_pieces l); reflexivity|].
  unfold format_pieces. rewrite flat_filter_nonempty, !flat_map_app.
  rewrite !(read_ranges (show:=show_chr)); try (intros; first [apply read_chr|apply read_chr_range]).
  rewrite read_names. cbn [flat_map]. rewrite app_nil_r, read_visible.
  - rewrite (read_ranges (show:=show_hex)); [reflexivity| |].
    + intros c Hc. apply read_hex, B. now apply filter_In in Hc.
    + intros a b Ha Hb. apply filter_In in Ha, Hb. apply read_hex_range; now apply B.
  - intros c Hc. apply filter_In in Hc. destruct Hc as [_ Hc]. now destruct (category_of c).
Qed.

(** C48.  A description, read piece by piece, gives back exactly the
    characters described. *)
Theorem C48_descriptions : forall l, (forall c, In c l -> (c < 256)%N) ->
  Permutation (read_description (format_chars l)) l.
Proof. intros l B. rewrite (read_format B). apply Permutation_sym, filter_partition. Qed.
Print Assumptions C48_descriptions.

(** So different sets have different descriptions. *)
Theorem C48_unambiguous : forall l l', (forall c, In c l -> (c < 256)%N) -> (forall c, In c l' -> (c < 256)%N) ->
  format_chars l = format_chars l' -> forall c, In c l <-> In c l'.
Proof.
  intros l l' B B' E c. pose proof (C48_descriptions B) as P. pose proof (C48_descriptions B') as P'. rewrite E in P.
  split; intro H.
  - apply (Permutation_in _ P'), (Permutation_in _ (Permutation_sym P) H).
  - apply (Permutation_in _ P), (Permutation_in _ (Permutation_sym P') H).
Qed.
Print Assumptions C48_unambiguous.

(** The intervals of [_char_ranges], spelled out, are the list it was given. *)
Theorem C48_intervals : forall l, flat_map (fun i => upto (fst i) (snd i)) (intervals None l) = l.
Proof. intro l. apply (@intervals_spec l None I). Qed.
Print Assumptions C48_intervals.

Example C48_example :
  let l := [0; 4; 5; 6; 7; 32; 48; 49; 50; 51; 65; 66; 67; 33; 35]%N in
  format_chars l = s "A" ++ [8211%N] ++ s "C or 0" ++ [8211%N] ++ s "3 or space or !# or 0x00 or 0x04" ++ [8211%N] ++ s "0x07".
Proof. reflexivity. Qed.

(** * C49: duplicates *)

(** The first of each group of equal elements, in order. *)
Section Firsts.
Context {A : Type}.
Variable eqb : A -> A -> bool.
Inductive firsts : list A -> list A -> Prop :=
| firsts_nil : firsts [] []
| firsts_new l r x : firsts l r -> (forall y, In y r -> eqb y x = false) -> firsts (l ++ [x]) (r ++ [x])
| firsts_old l r x y : firsts l r -> In y r -> eqb y x = true -> firsts (l ++ [x]) r.
(** How many elements are equal to [x]. *)
Definition times_in (x : A) (l : list A) : nat := List.length (filter (fun y => eqb y x) l).
Hypothesis refl : forall x, eqb x x = true.
Hypothesis sym : forall x y, eqb x y = true -> eqb y x = true.
Hypothesis trans : forall x y z, eqb x y = true -> eqb y z = true -> eqb x z = true.

Lemma times_snoc x l y : times_in x (l ++ [y]) = times_in x l + (if eqb y x then 1 else 0).
Proof. unfold times_in. rewrite filter_app, app_length. cbn. destruct (eqb y x); reflexivity. Qed.

Lemma count_in_old x c : (exists y, In y (map fst c) /\ eqb y x = true) -> map fst (count_in eqb x c) = map fst c.
Proof.
  induction c as [|[y n] c IH]; intros [z [H E]]; [easy|]. cbn. destruct (eqb y x) eqn:Ey; [reflexivity|].
  cbn. f_equal. apply IH. destruct H as [H|H]; [cbn in H; congruence|eauto].
Qed.
Lemma count_in_new x c : (forall y, In y (map fst c) -> eqb y x = false) -> count_in eqb x c = c ++ [(x, 1)].
Proof.
  induction c as [|[y n] c IH]; intro H; [reflexivity|]. cbn in *. rewrite (H y) by now left. f_equal. apply IH. auto.
Qed.

Lemma counter_spec l : exists u, firsts l u /\ counter eqb l = map (fun x => (x, times_in x l)) u
  /\ (forall x, In x l -> exists y, In y u /\ eqb y x = true)
  /\ (forall i j a b, i < j -> nth_error u i = Some a -> nth_error u j = Some b -> eqb a b = false)
  /\ (forall x, In x u -> In x l).
Proof using refl sym trans.
  induction l as [|x l IH] using rev_ind.
  - exists []. split; [constructor|]. split; [reflexivity|]. split; [easy|]. split; [intros [|i]; discriminate|easy].
  - destruct IH as (u & F & C & W & D & S).
    assert (Cs : counter eqb (l ++ [x]) = count_in eqb x (counter eqb l)) by (unfold counter; now rewrite fold_left_app).
    destruct (existsb (fun y => eqb y x) u) eqn:E.
    + apply existsb_exists in E. destruct E as [y [Hy Ey]]. exists u. split; [now apply firsts_old with y|].
      split; [|split; [|split; [assumption|]]].
      * rewrite Cs, C. clear C Cs F W S.
        induction u as [|z u IHu]; [easy|]. cbn [map count_in]. rewrite times_snoc. destruct (eqb z x) eqn:Ez.
        -- rewrite (sym Ez). f_equal; [f_equal; lia|]. apply map_ext_in. intros w Hw. rewrite times_snoc.
           replace (eqb x w) with false; [f_equal; lia|]. symmetry. destruct (eqb x w) eqn:Exw; [|reflexivity].
           apply In_nth_error in Hw. destruct Hw as [j Hj].
           pose proof (trans Ez Exw). pose proof (D 0 (Datatypes.S j) z w (Nat.lt_0_succ j) eq_refl Hj). congruence.
        -- replace (eqb x z) with false by (destruct (eqb x z) eqn:Ex; [apply sym in Ex; congruence|reflexivity]).
           f_equal; [f_equal; lia|]. destruct Hy as [->|Hy]; [congruence|]. apply IHu; [|assumption].
           intros i j a b Hij. apply (D (Datatypes.S i) (Datatypes.S j) a b). lia.
      * intros z Hz. apply in_app_or in Hz. destruct Hz as [Hz|[<-|[]]]; eauto.
      * intros z Hz. apply in_or_app. left. auto.
    + assert (N0 : forall y, In y u -> eqb y x = false).
      { intros y Hy. destruct (eqb y x) eqn:Ey; [|reflexivity].
        assert (existsb (fun y => eqb y x) u = true) by (apply existsb_exists; eauto). congruence. }
      exists (u ++ [x]). split; [now apply firsts_new|]. split; [|split; [|split]].
      * rewrite Cs, C, count_in_new.
        -- rewrite map_app. cbn. f_equal.
           ++ apply map_ext_in. intros y Hy. rewrite times_snoc.
              replace (eqb x y) with false; [f_equal; lia|]. symmetry. destruct (eqb x y) eqn:Ex; [|reflexivity].
              apply sym in Ex. rewrite N0 in Ex by assumption. discriminate.
           ++ rewrite times_snoc, refl. replace (times_in x l) with 0; [reflexivity|]. unfold times_in.
              destruct (filter (fun y => eqb y x) l) as [|z f] eqn:Ef; [reflexivity|]. exfalso.
              assert (Hz : In z (filter (fun y => eqb y x) l)) by (rewrite Ef; now left).
              apply filter_In in Hz. destruct Hz as [Hz Ez]. destruct (W z Hz) as [y [Hy Ey]].
              pose proof (trans Ey Ez) as Eyx. rewrite (N0 y Hy) in Eyx. discriminate.
        -- intros y Hy. rewrite map_map in Hy. cbn in Hy. rewrite map_id in Hy. auto.
      * intros z Hz. apply in_app_or in Hz. destruct Hz as [Hz|[<-|[]]].
        -- destruct (W z Hz) as [y [Hy Ey]]. exists y. split; [apply in_or_app; now left|assumption].
        -- exists x. split; [apply in_or_app; right; now left|apply refl].
      * intros i j a b Hij Ha Hb. destruct (Nat.lt_ge_cases j (List.length u)) as [Hj|Hj].
        -- rewrite nth_error_app1 in Ha, Hb by lia. eauto.
        -- rewrite nth_error_app2 in Hb by lia. destruct (j - List.length u) as [|k] eqn:Ej; [|destruct k; discriminate].
           cbn in Hb. inversion Hb; subst. rewrite nth_error_app1 in Ha by lia. apply N0. eapply nth_error_In. eassumption.
      * intros z Hz. apply in_app_or in Hz. destruct Hz as [Hz|[<-|[]]]; apply in_or_app; [left; auto|right; now left].
Qed.

(** C49.  For any notion of equality, the result is, among the first of each
    group of equal elements, exactly those that occur again. *)
Theorem C49_duplicates : forall l, exists u, firsts l u
  /\ duplicates eqb l = filter (fun x => 1 <? times_in x l) u.
Proof using refl sym trans.
  intro l. destruct (counter_spec l) as (u & F & C & _). exists u. split; [assumption|].
  unfold duplicates. rewrite C. clear C F. induction u as [|x u IH]; [reflexivity|]. cbn [map flat_map filter fst snd]. destruct (1 <? times_in x l); cbn [app]; now rewrite IH.
Qed.

Theorem C49_complete : forall l x, In x l -> (1 < times_in x l <-> exists y, In y (duplicates eqb l) /\ eqb y x = true).
Proof using refl sym trans.
  intros l x Hx. destruct (counter_spec l) as (u & F & C & W & D & S).
  assert (E : duplicates eqb l = filter (fun x => 1 <? times_in x l) u).
  { unfold duplicates. rewrite C. clear C F W D S. induction u as [|z u IH]; [reflexivity|]. cbn [map flat_map filter fst snd]. destruct (1 <? times_in z l); cbn [app]; now rewrite IH. }
  assert (T : forall y, eqb y x = true -> times_in y l = times_in x l).
  { intros y Ey. unfold times_in. f_equal. apply filter_ext. intro z. destruct (eqb z y) eqn:E1, (eqb z x) eqn:E2; try reflexivity.
    - pose proof (trans E1 Ey). congruence.
    - pose proof (trans E2 (sym Ey)). congruence. }
  rewrite E. split.
  - intro H. destruct (W x Hx) as [y [Hy Ey]]. exists y. split; [|assumption]. apply filter_In. split; [assumption|].
    rewrite (T y Ey). now apply Nat.ltb_lt.
  - intros [y [Hy Ey]]. apply filter_In in Hy. destruct Hy as [_ Hy]. rewrite (T y Ey) in Hy. now apply Nat.ltb_lt.
Qed.
End Firsts.
Print Assumptions C49_duplicates.
Print Assumptions C49_complete.
Example C49_example : duplicates Nat.eqb [1; 2; 3; 1; 4; 5; 2; 6; 4; 7; 8] = [1; 2; 4].
Proof. reflexivity. Qed.

(** * C50: MultiDict *)

Section MultiDictProps.
Context {K V : Type}.
Variable keq : K -> K -> bool.
Hypothesis refl : forall x, keq x x = true.
Hypothesis sym : forall x y, keq x y = true -> keq y x = true.
Hypothesis trans : forall x y z, keq x y = true -> keq y z = true -> keq x z = true.

(** The values with a given name, in order. *)
Definition values (d : list (K * V)) (k : K) : list V :=
  map snd (filter (fun kv => keq (fst kv) k) d).

Lemma keq_congr x y k : keq x y = true -> keq x k = keq y k.
Proof using sym trans.
  intro E. destruct (keq x k) eqn:E1, (keq y k) eqn:E2; try reflexivity.
  - pose proof (trans (sym E) E1). congruence.
  - pose proof (trans E E2). congruence.
Qed.
Lemma look_add (r : list (K * list V)) k v k' : look keq (add_to keq r k v) k'
  = if keq k k' then Some (match look keq r k' with Some vs => vs | None => [] end ++ [v]) else look keq r k'.
Proof using sym trans.
  induction r as [|[k0 vs] r IH]; cbn; [destruct (keq k k'); reflexivity|].
  destruct (keq k0 k) eqn:E; cbn.
  - rewrite (keq_congr k' E). destruct (keq k k'); reflexivity.
  - rewrite IH. destruct (keq k k') eqn:E1, (keq k0 k') eqn:E2; try reflexivity.
    pose proof (trans E2 (sym E1)). congruence.
Qed.
Lemma look_dictionary (d : list (K * V)) k : look keq (dictionary keq d) k = match values d k with [] => None | vs => Some vs end.
Proof using sym trans.
  induction d as [|[k0 v] d IH] using rev_ind; [reflexivity|].
  unfold dictionary. rewrite fold_left_app. fold (dictionary keq d). cbn [fold_left fst snd]. rewrite look_add, IH.
  unfold values. rewrite filter_app, map_app. cbn. destruct (keq k0 k); cbn; [|now rewrite app_nil_r].
  destruct (map snd (filter (fun kv => keq (fst kv) k) d)); reflexivity.
Qed.

(** C50.  Lookup is the first value, or fails if there is none; [getall] is all
    of them; membership is that there is one; [get] falls back to the default. *)
Theorem C50_lookup : forall (d : list (K * V)) k default,
  getitem keq d k = hd_error (values d k)
  /\ getall keq d k = values d k
  /\ (contains keq d k = true <-> exists k' v, In (k', v) d /\ keq k' k = true)
  /\ get keq d k default = Some (match values d k with v :: _ => v | [] => default end).
Proof using sym trans.
  intros d k default. unfold getitem, getall, get, contains. rewrite look_dictionary.
  assert (X : values d k <> [] <-> exists k' v, In (k', v) d /\ keq k' k = true).
  { unfold values. split.
    - intro H. destruct (filter (fun kv => keq (fst kv) k) d) as [|[k' v] f] eqn:E; [easy|].
      assert (I : In (k', v) (filter (fun kv => keq (fst kv) k) d)) by (rewrite E; now left).
      apply filter_In in I. exists k', v. exact I.
    - intros (k' & v & I & E) N0.
      assert (J : In (k', v) (filter (fun kv => keq (fst kv) k) d)) by (apply filter_In; auto).
      apply (in_map snd) in J. rewrite N0 in J. destruct J. }
  split; [destruct (values d k); reflexivity|]. split; [destruct (values d k); reflexivity|]. split.
  - rewrite <- X. destruct (values d k); split; congruence.
  - destruct (values d k) eqn:E; [reflexivity|]. unfold getitem. rewrite look_dictionary, E. reflexivity.
Qed.

Lemma dict_keys (d : list (K * V)) : firsts keq (map fst d) (iter keq d) /\ dictionary keq d = map (fun k => (k, values d k)) (iter keq d)
  /\ (forall k, In k (map fst d) -> exists k', In k' (iter keq d) /\ keq k' k = true)
  /\ (forall i j a b, i < j -> nth_error (iter keq d) i = Some a -> nth_error (iter keq d) j = Some b -> keq a b = false).
Proof using refl sym trans.
  induction d as [|[k0 v0] d IH] using rev_ind.
  - split; [constructor|]. split; [reflexivity|]. split; [easy|]. intros [|i] j a b; discriminate.
  - destruct IH as (F & E & W & D).
    assert (Ds : dictionary keq (d ++ [(k0, v0)]) = add_to keq (dictionary keq d) k0 v0) by (unfold dictionary; now rewrite fold_left_app).
    assert (Vs : forall k, values (d ++ [(k0, v0)]) k = values d k ++ (if keq k0 k then [v0] else [])).
    { intro k. unfold values. rewrite filter_app, map_app. cbn. destruct (keq k0 k); reflexivity. }
    set (u := iter keq d) in *.
    destruct (existsb (fun y => keq y k0) u) eqn:X.
    + apply existsb_exists in X. destruct X as [y [Hy Ey]].
      assert (A : add_to keq (dictionary keq d) k0 v0 = map (fun k => (k, values (d ++ [(k0, v0)]) k)) u).
      { rewrite E. clear E F W Ds. clearbody u. induction u as [|z u IHu]; [easy|]. cbn [map add_to]. rewrite Vs.
        destruct (keq z k0) eqn:Ez.
        - rewrite (sym Ez). f_equal. apply map_ext_in. intros w Hw. rewrite Vs.
          replace (keq k0 w) with false; [now rewrite app_nil_r|]. symmetry. destruct (keq k0 w) eqn:Ew; [|reflexivity].
          apply In_nth_error in Hw. destruct Hw as [j Hj].
          pose proof (D 0 (Datatypes.S j) z w (Nat.lt_0_succ j) eq_refl Hj). pose proof (trans Ez Ew). congruence.
        - replace (keq k0 z) with false by (destruct (keq k0 z) eqn:Ex; [apply sym in Ex; congruence|reflexivity]).
          rewrite app_nil_r. f_equal. destruct Hy as [->|Hy]; [congruence|]. apply IHu; [|assumption].
          intros i j a b Hij. apply (D (Datatypes.S i) (Datatypes.S j) a b). lia. }
      assert (U : iter keq (d ++ [(k0, v0)]) = u).
      { unfold iter. rewrite Ds, A, map_map. cbn. apply map_id. }
      rewrite U, map_app. split; [now apply firsts_old with y|]. split; [now rewrite Ds|]. split; [|assumption].
      intros k Hk. apply in_app_or in Hk. destruct Hk as [Hk|[<-|[]]]; eauto.
    + assert (N0 : forall y, In y u -> keq y k0 = false).
      { intros y Hy. destruct (keq y k0) eqn:Ey; [|reflexivity].
        assert (existsb (fun y => keq y k0) u = true) by (apply existsb_exists; eauto). congruence. }
      assert (A : add_to keq (dictionary keq d) k0 v0 = map (fun k => (k, values (d ++ [(k0, v0)]) k)) (u ++ [k0])).
      { assert (Z : values d k0 = []).
        { unfold values. destruct (filter (fun kv => keq (fst kv) k0) d) as [|[k1 v1] f] eqn:Ef; [reflexivity|]. exfalso.
          assert (I1 : In (k1, v1) (filter (fun kv => keq (fst kv) k0) d)) by (rewrite Ef; now left).
          apply filter_In in I1. destruct I1 as [I1 E1]. destruct (W k1 (in_map fst _ _ I1)) as [y [Hy Ey]].
          pose proof (trans Ey E1). rewrite N0 in H by assumption. discriminate. }
        rewrite map_app. cbn [map]. rewrite Vs, Z, refl. cbn [app]. rewrite E. clear E F W Ds D X. clearbody u.
        induction u as [|z u IHu]; [reflexivity|]. cbn [map add_to app]. rewrite (N0 z) by now left. rewrite Vs.
        replace (keq k0 z) with false.
        2:{ symmetry. destruct (keq k0 z) eqn:Ex; [|reflexivity]. apply sym in Ex. rewrite N0 in Ex by now left. discriminate. }
        rewrite app_nil_r. f_equal. apply IHu. intros; apply N0; now right. }
      assert (U : iter keq (d ++ [(k0, v0)]) = u ++ [k0]).
      { unfold iter. rewrite Ds, A, map_map. cbn. apply map_id. }
      rewrite U, map_app. split; [now apply firsts_new|]. split; [now rewrite Ds|]. split.
      * intros k Hk. apply in_app_or in Hk. destruct Hk as [Hk|[<-|[]]].
        -- destruct (W k Hk) as [y [Hy Ey]]. exists y. split; [apply in_or_app; now left|assumption].
        -- exists k0. split; [apply in_or_app; right; now left|apply refl].
      * intros i j a b Hij Ha Hb. destruct (Nat.lt_ge_cases j (List.length u)) as [Hj|Hj].
        -- rewrite nth_error_app1 in Ha, Hb by lia. eauto.
        -- rewrite nth_error_app2 in Hb by lia. destruct (j - List.length u) as [|k] eqn:Ej; [|destruct k; discriminate].
           cbn in Hb. inversion Hb; subst. rewrite nth_error_app1 in Ha by lia. apply N0. eapply nth_error_In. eassumption.
Qed.

(** Iteration gives every name once, in order of first occurrence;
    [duplicates] those that have several values. *)
Theorem C50_names : forall d : list (K * V),
  firsts keq (map fst d) (iter keq d)
  /\ dup_keys keq d = filter (fun k => 1 <? List.length (values d k)) (iter keq d).
Proof using refl sym trans.
  intro d. destruct (dict_keys d) as (F & E & _). split; [assumption|]. unfold dup_keys. rewrite E. clear.
  induction (iter keq d) as [|k u IH]; [reflexivity|]. cbn [map flat_map filter fst snd]. destruct (1 <? List.length (values d k)); cbn [app]; now rewrite IH.
Qed.

(** [index] is the position of the first pair with the name. *)
Theorem C50_index : forall (d : list (K * V)) k,
  (forall i, index keq d k = Some i ->
     exists k' v, nth_error d i = Some (k', v) /\ keq k' k = true
                  /\ forall j k'' w, j < i -> nth_error d j = Some (k'', w) -> keq k'' k = false)
  /\ (index keq d k = None -> forall k' v, In (k', v) d -> keq k' k = false).
Proof.
  intros d k. induction d as [|[k0 v0] d [IH1 IH2]]; [split; [discriminate|easy]|].
  cbn. destruct (keq k0 k) eqn:E; split.
  - intros i H. inversion H; subst. exists k0, v0. split; [reflexivity|]. split; [assumption|]. lia.
  - discriminate.
  - intros i H. destruct (index keq d k) as [j|] eqn:Ej; [|discriminate]. cbn in H. inversion H; subst.
    destruct (IH1 j eq_refl) as (k' & v & Hn & Hk & Hl). exists k', v. split; [assumption|]. split; [assumption|].
    intros [|j'] k'' w Hj Hw; [cbn in Hw; congruence|]. apply (Hl j' k'' w); [lia|assumption].
  - intros H k' v [H'|H']; [congruence|]. apply (IH2 (match index keq d k as o return option_map S o = None -> o = None with Some _ => fun e => match e with eq_refl => I end | None => fun _ => eq_refl end H) k' v H').
Qed.
End MultiDictProps.
Print Assumptions C50_lookup.
Print Assumptions C50_names.
Print Assumptions C50_index.
Example C50_example :
  let d := [(s "a", 1); (s "b", 2); (s "a", 3)] in
  getitem str_eqb d (s "a") = Some 1 /\ getall str_eqb d (s "a") = [1; 3] /\ contains str_eqb d (s "c") = false
  /\ dup_keys str_eqb d = [s "a"] /\ iter str_eqb d = [s "a"; s "b"] /\ index str_eqb d (s "b") = Some 1.
Proof. vm_compute. repeat split; reflexivity. Qed.

(** * C51: CaseInsensitive *)

(** Two letters are the same but for case: those of ASCII, and those of
    ISO-8859-1 with diacritics (A with grave to thorn, without the multiplication
    sign). *)
Definition capital (c : N) : Prop := (65 <= c <= 90 \/ 192 <= c <= 222 /\ c <> 215)%N.
Inductive same_letter : N -> N -> Prop :=
| same_refl c : same_letter c c
| same_up c : capital c -> same_letter c (c + 32)
| same_down c : capital c -> same_letter (c + 32) c.

Lemma lower1_spec a b : lower1 a = lower1 b <-> same_letter a b.
Proof.
  split.
  - unfold lower1. destruct (is_upper a) eqn:Ea, (is_upper b) eqn:Eb; intro H; unfold is_upper in *.
    + replace b with a by lia. constructor.
    + rewrite <- H. constructor 2. unfold capital. lia.
    + rewrite H. constructor 3. unfold capital. lia.
    + subst. constructor.
  - intros [c|c H|c H]; [reflexivity| |]; unfold lower1; unfold capital in H;
      replace (is_upper c) with true by (unfold is_upper; lia);
      replace (is_upper (c + 32)) with false by (unfold is_upper; lia); reflexivity.
Qed.
Lemma lower_spec a b : lower a = lower b <-> Forall2 same_letter a b.
Proof.
  revert b. induction a as [|x a IH]; destruct b as [|y b]; cbn; split; intro H; try easy; try constructor.
  - inversion H. now apply lower1_spec.
  - inversion H. now apply IH.
  - inversion H; subst. f_equal; [now apply lower1_spec|now apply IH].
Qed.

(** C51.  Comparison of strings one of which is case-insensitive is equality
    but for the case of letters; it is an equivalence on case-insensitive
    strings, and equal ones have the same hash. *)
Theorem C51_equality : forall a b, ci_eq a b = true <-> Forall2 same_letter a b.
Proof. intros a b. unfold ci_eq. rewrite str_eqb_eq. apply lower_spec. Qed.
Print Assumptions C51_equality.

Theorem C51_equivalence : forall h a b c,
  py_eq (CI a) (CI a) = true
  /\ (forall x y, py_eq x y = py_eq y x)
  /\ (py_eq (CI a) (CI b) = true -> py_eq (CI b) (CI c) = true -> py_eq (CI a) (CI c) = true)
  /\ (py_eq (CI a) (CI b) = true -> py_hash h (CI a) = py_hash h (CI b)).
Proof.
  assert (Sy : forall x y, str_eqb x y = str_eqb y x).
  { intros x y. destruct (str_eqb x y) eqn:E1, (str_eqb y x) eqn:E2; try reflexivity;
      [apply str_eqb_eq in E1|apply str_eqb_eq in E2]; subst; rewrite str_eqb_refl in *; discriminate. }
  intros h a b c. split; [apply str_eqb_refl|]. split; [|split].
  - intros [x|x] [y|y]; cbn; unfold ci_eq; apply Sy.
  - cbn. unfold ci_eq. rewrite !str_eqb_eq. congruence.
  - cbn. unfold ci_eq. rewrite str_eqb_eq. congruence.
Qed.
Print Assumptions C51_equivalence.

(** Prefix and suffix tests ignore case. *)
Lemma starts_with_spec b : forall a, starts_with a b = true <-> exists r, a = b ++ r.
Proof.
  induction b as [|y b IH]; intro a; [split; [exists a; reflexivity|destruct a; reflexivity]|].
  destruct a as [|x a]; cbn; [split; [discriminate|intros [r H]; discriminate]|].
  rewrite andb_true_iff, N.eqb_eq, IH. split.
  - intros [-> [r ->]]. now exists r.
  - intros [r H]. inversion H. split; [reflexivity|now exists r].
Qed.
Theorem C51_prefix : forall a b,
  (ci_startswith a b = true <-> exists p r, a = p ++ r /\ Forall2 same_letter p b)
  /\ (ci_endswith a b = true <-> exists r p, a = r ++ p /\ Forall2 same_letter p b).
Proof.
  intros a b. split.
  - unfold ci_startswith. rewrite starts_with_spec. unfold lower. split.
    + intros [r H]. destruct (map_eq_app _ _ _ _ H) as (p & q & -> & Hp & Hq). exists p, q. split; [reflexivity|].
      now apply lower_spec.
    + intros (p & r & -> & H). apply lower_spec in H. exists (map lower1 r). rewrite map_app. unfold lower in H. now rewrite H.
  - unfold ci_endswith, ends_with. rewrite starts_with_spec. unfold lower. rewrite <- !map_rev. split.
    + intros [r H]. destruct (map_eq_app _ _ _ _ H) as (p & q & Ea & Hp & Hq).
      exists (rev q), (rev p). split; [rewrite <- rev_app_distr, <- Ea; now rewrite rev_involutive|].
      apply lower_spec. unfold lower. rewrite map_rev, Hp, map_rev. apply rev_involutive.
    + intros (r & p & -> & H). apply lower_spec in H. exists (map lower1 (rev r)).
      rewrite rev_app_distr, map_app, !map_rev. unfold lower in H. now rewrite H.
Qed.
Print Assumptions C51_prefix.

(** But a plain string can equal a case-insensitive one and hash differently,
    and equality with plain strings is not transitive. *)
Theorem C51_plain_refuted : forall h, h (s "ETag") <> h (s "etag") ->
  py_eq (Plain (s "ETag")) (CI (s "etag")) = true
  /\ py_hash h (Plain (s "ETag")) <> py_hash h (CI (s "etag"))
  /\ py_eq (Plain (s "ETag")) (CI (s "etag")) = true /\ py_eq (CI (s "etag")) (Plain (s "etag")) = true
  /\ py_eq (Plain (s "ETag")) (Plain (s "etag")) = false.
Proof. intros h H. repeat split; try reflexivity. exact H. Qed.
Print Assumptions C51_plain_refuted.

(** Looking up a plain lower-case string is safe. *)
Theorem C51_lower_case_keys : forall h x k, lower k = k -> py_eq (CI x) (Plain k) = true -> py_hash h (CI x) = py_hash h (Plain k).
Proof. intros h x k L. cbn. unfold ci_eq. rewrite str_eqb_eq, L. now intros ->. Qed.
Print Assumptions C51_lower_case_keys.
Example C51_example : ci_eq (s "Content-TYPE") (s "content-type") = true /\ ci_startswith (s "X-Foo") (s "x-") = true
  /\ ci_endswith (s "application/foo+JSON") (s "+json") = true /\ ci_eq (s "a_") (s "a@") = false.
Proof. repeat split; reflexivity. Qed.

(** * C52: helpers *)

Definition is_pseudo (n : str) : Prop := exists r, n = [58%N] ++ r.
Fixpoint last_value {V} (l : list (str * V)) (n : str) : option V :=
  match l with
  | [] => None
  | (n', v) :: l' => match last_value l' n with Some w => Some w | None => if str_eqb n' n then Some v else None end
  end.
Fixpoint lookup {V} (r : list (str * V)) (n : str) : option V :=
  match r with
  | [] => None
  | (n', v) :: r' => if str_eqb n' n then Some v else lookup r' n
  end.
Lemma lookup_assign {V} (r : list (str * V)) k v n : lookup (assign r k v) n = if str_eqb k n then Some v else lookup r n.
Proof.
  induction r as [|[k' w] r IH]; [reflexivity|]. cbn. destruct (str_eqb k' k) eqn:E; cbn.
  - apply str_eqb_eq in E. subst. destruct (str_eqb k n); reflexivity.
  - rewrite IH. destruct (str_eqb k n) eqn:E1; [|reflexivity]. apply str_eqb_eq in E1. subst. now rewrite E.
Qed.
Lemma pop_pseudo_spec {V} (entries : list (str * V)) : forall r,
  fst (pop_pseudo entries r) = filter (fun e => negb (starts_with (fst e) (s ":"))) entries
  /\ forall n, lookup (snd (pop_pseudo entries r)) n
       = match last_value (filter (fun e => starts_with (fst e) (s ":")) entries) n with Some v => Some v | None => lookup r n end.
Proof.
  induction entries as [|[k v] l IH]; intro r; [split; reflexivity|]. cbn [pop_pseudo filter fst].
  destruct (starts_with k (s ":")) eqn:E; cbn [negb].
  - destruct (IH (assign r k v)) as [I1 I2]. split; [exact I1|]. intro n. rewrite I2. cbn [last_value].
    destruct (last_value _ n); [reflexivity|]. rewrite lookup_assign. destruct (str_eqb k n); reflexivity.
  - destruct (IH r) as [I1 I2]. destruct (pop_pseudo l r) as [left r']. cbn [fst snd] in *. split; [now rewrite I1|exact I2].
Qed.

(** C52.  [pop_pseudo_headers] leaves the other entries as they were and
    returns the last value of every pseudo-header. *)
Theorem C52_pseudo_headers : forall V (entries : list (str * V)),
  let (left, r) := pop_pseudo_headers entries in
  (exists keep, (forall n, keep n = true <-> ~ is_pseudo n) /\ left = filter (fun e => keep (fst e)) entries)
  /\ forall n, lookup r n = if starts_with n (s ":") then last_value entries n else None.
Proof.
  intros V entries. unfold pop_pseudo_headers. destruct (pop_pseudo_spec entries []) as [E1 E2].
  destruct (pop_pseudo entries []) as [left r]. cbn [fst snd] in *. split.
  - exists (fun n => negb (starts_with n (s ":"))). split; [|assumption]. intro n. rewrite negb_true_iff.
    change (is_pseudo n) with (exists r, n = s ":" ++ r). rewrite <- starts_with_spec. destruct (starts_with n (s ":")); intuition congruence.
  - intro n. rewrite E2. clear. induction entries as [|[k v] l IH]; [now destruct (starts_with n (s ":"))|]. cbn [filter fst].
    destruct (starts_with k (s ":")) eqn:Ek; cbn [last_value lookup] in *.
    + destruct (last_value (filter _ l) n) as [w|] eqn:El.
      * destruct (starts_with n (s ":")); [|discriminate]. now rewrite <- IH.
      * destruct (starts_with n (s ":")) eqn:En.
        -- rewrite <- IH. destruct (str_eqb k n); reflexivity.
        -- destruct (str_eqb k n) eqn:E; [|reflexivity]. apply str_eqb_eq in E. congruence.
    + rewrite IH. destruct (starts_with n (s ":")) eqn:En; [|reflexivity].
      destruct (last_value l n); [reflexivity|]. destruct (str_eqb k n) eqn:E; [|reflexivity]. apply str_eqb_eq in E. congruence.
Qed.
Print Assumptions C52_pseudo_headers.

(** The variables that are headers: those called HTTP_something, and
    CONTENT_LENGTH and CONTENT_TYPE if not empty. *)
Definition is_header_var (e : str * str) : Prop :=
  (exists r, fst e = s "HTTP_" ++ r) \/ ((fst e = s "CONTENT_LENGTH" \/ fst e = s "CONTENT_TYPE") /\ snd e <> []).
(** The name of the header: without the prefix, with dashes for underscores;
    the case does not matter. *)
Definition dashes (n : str) : str := map (fun c => if (c =? 95)%N then 45%N else c) n.
Definition header_name_is (var name : str) : Prop :=
  match (if starts_with var (s "HTTP_") then skipn 5 var else var) with
  | bare => Forall2 same_letter name (dashes bare)
  end.

Lemma same_all x : Forall2 same_letter x x.
Proof. induction x; constructor; [constructor|assumption]. Qed.
Lemma upper1_same c : same_letter (upper1 c) c.
Proof.
  unfold upper1. destruct ((97 <=? c)%N && (c <=? 122)%N) eqn:E; [|constructor].
  replace c with ((c - 32) + 32)%N at 2 by lia. constructor 2. unfold capital. lia.
Qed.
Lemma lower1_same c : same_letter (lower1 c) c.
Proof. unfold lower1. destruct (is_upper c) eqn:E; [|constructor]. constructor 3. unfold is_upper in E. unfold capital. lia. Qed.
Lemma title_same x : forall b, Forall2 same_letter (title_from b x) x.
Proof.
  induction x as [|c x IH]; intro b; cbn; constructor; [|apply IH]. destruct b; [apply lower1_same|apply upper1_same].
Qed.
Lemma split_ne sep x : split_c sep x <> [].
Proof. induction x as [|c x IH]; cbn; [discriminate|]. destruct (split_c sep x); [easy|]. destruct (c =? sep)%N; discriminate. Qed.
Lemma name_same x : Forall2 same_letter (join (s "-") (map title (split_c 95 x))) (dashes x).
Proof.
  assert (G : forall x, Forall2 same_letter (join (s "-") (map title (split_c 95 x))) (dashes x)
     /\ forall p q, Forall2 same_letter p q ->
        match split_c 95 x with w :: ws => Forall2 same_letter (join (s "-") ((p ++ w) :: map title ws)) (q ++ dashes x) | [] => False end).
  { clear x. intro x. induction x as [|c x [IH1 IH2]].
    - split; [constructor|]. intros p q H. cbn. now rewrite !app_nil_r.
    - assert (S2 : forall p q, Forall2 same_letter p q ->
        match split_c 95 (c :: x) with w :: ws => Forall2 same_letter (join (s "-") ((p ++ w) :: map title ws)) (q ++ dashes (c :: x)) | [] => False end).
      { intros p q H. cbn [split_c]. destruct (split_c 95 x) as [|w ws] eqn:E; [now apply split_ne in E|].
        cbn [dashes map]. fold (dashes x). destruct (c =? 95)%N eqn:Ec.
        - rewrite app_nil_r, join_cons by discriminate. apply Forall2_app; [assumption|].
          cbn [s list_ascii_of_string map app]. constructor; [constructor|]. exact IH1.
        - replace (p ++ c :: w) with ((p ++ [c]) ++ w) by now rewrite <- app_assoc.
          replace (q ++ c :: dashes x) with ((q ++ [c]) ++ dashes x) by now rewrite <- app_assoc.
          apply IH2. apply Forall2_app; [assumption|]. constructor; constructor. }
      split; [|exact S2].
      specialize (S2 [] [] (Forall2_nil _)). destruct (split_c 95 (c :: x)) as [|w ws]; [easy|]. cbn [app map] in *.
      assert (Tr : forall a b d, Forall2 same_letter a b -> Forall2 same_letter b d -> Forall2 same_letter a d).
      { intros a b d H K. apply lower_spec in H, K. apply lower_spec. congruence. }
      apply Tr with (join (s "-") (w :: map title ws)); [|exact S2].
      destruct ws; cbn [map join]; [apply title_same|]. apply Forall2_app; [apply title_same|].
      apply same_all. }
  apply G.
Qed.
Lemma header_name_ok n : header_name_is n (header_name_from_cgi n).
Proof. unfold header_name_is, header_name_from_cgi. change (List.length http_prefix) with 5. apply name_same. Qed.

Lemma env_get_in env k v : NoDup (map fst env) -> env_get env k = Some v <-> In (k, v) env.
Proof.
  induction env as [|[k' v'] env IH]; cbn; intro D; [split; easy|]. inversion D as [|? ? N0 D']; subst.
  destruct (str_eqb k' k) eqn:E.
  - apply str_eqb_eq in E. subst. split; [intro H; inversion H; now left|]. intros [H|H]; [congruence|].
    exfalso. apply N0. change k with (fst (k, v)). now apply in_map.
  - rewrite (IH D'). apply str_eqb_neq in E. split; [tauto|]. intros [H|H]; [congruence|assumption].
Qed.

Definition addn (names : list str) (n : str) : list str :=
  if starts_with n http_prefix && negb (existsb (str_eqb n) names) then names ++ [n] else names.
Lemma existsb_in n l : existsb (str_eqb n) l = true <-> In n l.
Proof.
  rewrite existsb_exists. split; [intros [x [H E]]; apply str_eqb_eq in E; now subst|].
  intro H. exists n. split; [assumption|apply str_eqb_refl].
Qed.
Lemma addn_fold l : forall acc, NoDup acc -> NoDup (fold_left addn l acc)
  /\ (forall n, In n (fold_left addn l acc) <-> In n acc \/ (In n l /\ starts_with n http_prefix = true))
  /\ exists more, fold_left addn l acc = acc ++ more.
Proof.
  induction l as [|n l IH]; intros acc D; [split; [assumption|split; [cbn; tauto|exists []; now rewrite app_nil_r]]|].
  cbn [fold_left]. unfold addn at 2 4 6. destruct (starts_with n http_prefix) eqn:E; cbn [andb].
  - destruct (existsb (str_eqb n) acc) eqn:X; cbn [negb].
    + destruct (IH acc D) as (I1 & I2 & I3). split; [assumption|]. split; [|assumption]. apply existsb_in in X.
      intro m. rewrite I2. cbn [In]. split; [tauto|]. intros [H|[[->|H] K]]; tauto.
    + assert (N0 : ~ In n acc) by (rewrite <- existsb_in; congruence).
      destruct (IH (acc ++ [n])) as (I1 & I2 & more & I3).
      { apply NoDup_rev in D. rewrite <- (rev_involutive (acc ++ [n])). apply NoDup_rev. rewrite rev_app_distr. cbn.
        constructor; [now rewrite <- in_rev|assumption]. }
      split; [assumption|]. split.
      * intro m. rewrite I2, in_app_iff. cbn. split; [intuition (subst; tauto)|]. intuition.
      * exists (n :: more). rewrite I3, <- app_assoc. reflexivity.
  - destruct (IH acc D) as (I1 & I2 & I3). split; [assumption|]. split; [|assumption].
    intro m. rewrite I2. cbn [In]. split; [tauto|]. intros [H|[[E0|H] K]]; [tauto|subst; congruence|tauto].
Qed.

(** C52.  The entries produced correspond one to one to the header variables of
    the environment. *)
Theorem C52_cgi : forall env, NoDup (map fst env) ->
  exists vars : list (str * str),
    NoDup vars
    /\ (forall e, In e vars <-> In e env /\ is_header_var e)
    /\ Forall2 (fun e entry => header_name_is (fst e) (fst entry) /\ snd entry = snd e) vars (headers_from_cgi env).
Proof.
  intros env D. unfold headers_from_cgi.
  set (val := fun n => match env_get env n with Some v => v | None => [] end).
  set (d0 := filter (fun n => truthy (env_get env n)) default_names).
  assert (D0 : NoDup d0).
  { apply NoDup_filter. repeat constructor; cbn; intuition discriminate. }
  destruct (addn_fold (map fst env) D0) as (N1 & I1 & _). fold (cgi_names env) in N1, I1.
  change (fold_left addn (map fst env) d0) with (cgi_names env) in *.
  exists (map (fun n => (n, val n)) (cgi_names env)). split; [|split].
  - apply FinFun.Injective_map_NoDup; [|assumption]. intros a b H. now inversion H.
  - intros [n v]. rewrite in_map_iff.
    assert (Hd : In n d0 <-> In n default_names /\ exists c w, env_get env n = Some (c :: w)).
    { unfold d0. rewrite filter_In. unfold truthy. destruct (env_get env n) as [[|c w]|]; split; intros [H K]; split;
        try assumption; try discriminate; try (destruct K as (? & ? & K); discriminate); eauto. }
    split.
    + intros [m [E H]]. inversion E; subst; clear E. apply I1 in H. destruct H as [H|[H K]].
      * apply Hd in H. destruct H as [H (c & w & E)]. unfold val. rewrite E. split; [now apply env_get_in|].
        unfold is_header_var. cbn [fst snd]. cbn in H. destruct H as [<-|[<-|[<-|[]]]].
        -- left. now exists (s "HOST").
        -- right. split; [now left|discriminate].
        -- right. split; [now right|discriminate].
      * apply in_map_iff in H. destruct H as [[n' v] [En Hi]]. cbn in En. subst n'. unfold val.
        rewrite (proj2 (env_get_in n v D) Hi). split; [assumption|]. left. now apply starts_with_spec.
    + intros [H K]. pose proof (proj2 (env_get_in n v D) H) as E. exists n. split; [unfold val; now rewrite E|].
      apply I1. destruct K as [K|[K Nv]]; cbn [fst snd] in *.
      * right. split; [apply in_map_iff; now exists (n, v)|now apply starts_with_spec].
      * left. apply Hd. split; [cbn; destruct K as [->| ->]; tauto|]. rewrite E. destruct v; [easy|eauto].
  - clear. induction (cgi_names env) as [|n l IH]; cbn; constructor; [|assumption]. cbn. split; [apply header_name_ok|reflexivity].
Qed.
Print Assumptions C52_cgi.

(** The Host header comes first, if there is one. *)
Theorem C52_host_first : forall env v, env_get env (s "HTTP_HOST") = Some v -> v <> [] ->
  exists rest, headers_from_cgi env = (s "Host", v) :: rest.
Proof.
  intros env v E N0. unfold headers_from_cgi, cgi_names. fold addn.
  set (d0 := filter (fun n => truthy (env_get env n)) default_names).
  assert (H0 : exists d, d0 = s "HTTP_HOST" :: d).
  { unfold d0, default_names. cbn [filter]. rewrite E. destruct v; [easy|]. cbn [truthy]. eauto. }
  destruct H0 as [d Ed].
  assert (D0 : NoDup d0) by (apply NoDup_filter; repeat constructor; cbn; intuition discriminate).
  destruct (addn_fold (map fst env) D0) as (_ & _ & more & M).
  change (fun names n => if starts_with n http_prefix && negb (existsb (str_eqb n) names) then names ++ [n] else names) with addn.
  rewrite M, Ed. cbn [app map]. rewrite E. eexists. reflexivity.
Qed.
Print Assumptions C52_host_first.

Example C52_example :
  headers_from_cgi [(s "PATH", s "/x"); (s "HTTP_X_FOO", s "1"); (s "CONTENT_LENGTH", []); (s "HTTP_HOST", s "h")]
  = [(s "Host", s "h"); (s "X-Foo", s "1")].
Proof. reflexivity. Qed.
