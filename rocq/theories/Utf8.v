(** The bytes that can be decoded are those of some text. *)
From Coq Require Import ZifyBool ZifyNat ZifyN Lia ZArith.
From Verif Require Import Base Earley Grammar Actions MoreValues.
Open Scope nat_scope.
Open Scope list_scope.
Unset Strict Implicit.

Ltac Zify.zify_post_hook ::= Z.to_euclidean_division_equations.
Lemma mod64 x : (x mod 64 < 64)%N.
Proof. lia. Qed.
Lemma encode_ok c r : scalar c -> utf8_ok (utf8_bytes c ++ r) = utf8_ok r.
Proof.
  intro S. unfold utf8_bytes. destruct (c <? 128)%N eqn:E1; [cbn [app utf8_ok]; now rewrite E1|].
  destruct (c <? 2048)%N eqn:E2.
  { cbn [app utf8_ok]. replace (192 + c / 64 <? 128)%N with false by lia. replace ((194 <=? 192 + c / 64) && (192 + c / 64 <=? 223))%N with true by lia. unfold utf8_cont. replace ((128 <=? 128 + c mod 64) && (128 + c mod 64 <=? 191))%N with true by lia. reflexivity. }
  destruct (c <? 65536)%N eqn:E3; unfold scalar in S.
  { cbn [app utf8_ok]. set (a := (224 + c / 4096)%N). set (b := (128 + c / 64 mod 64)%N). set (d := (128 + c mod 64)%N).
    assert (D : (128 <= d <= 191)%N) by (subst d; lia).
    assert (B : (128 <= b <= 191)%N) by (subst b; pose proof (mod64 (c / 64)); lia).
    assert (A : (224 <= a <= 239)%N) by (subst a; lia).
    assert (A1 : a = 224%N -> (160 <= b)%N).
    { subst a b. intro. assert (c < 4096)%N by lia. assert ((c / 64) mod 64 = c / 64)%N by (apply N.mod_small; lia). lia. }
    assert (A2 : a = 237%N -> (b <= 159)%N).
    { subst a b. intro. assert (53248 <= c < 55296)%N by lia. assert (c / 64 = 832 + (c - 53248) / 64)%N by lia. assert (E : ((c / 64) mod 64 = (c - 53248) / 64)%N). { rewrite H1. replace (832 + (c - 53248) / 64)%N with ((c - 53248) / 64 + 13 * 64)%N by lia. rewrite N.mod_add by lia. apply N.mod_small. lia. } rewrite E. lia. }
    clearbody a b d. clear S E1 E2 E3 c. unfold utf8_cont.
    replace (a <? 128)%N with false by lia. replace ((194 <=? a) && (a <=? 223))%N with false by lia. replace ((224 <=? a) && (a <=? 239))%N with true by lia.
    replace ((128 <=? b) && (b <=? 191))%N with true by lia. replace ((128 <=? d) && (d <=? 191))%N with true by lia.
    destruct (a =? 224)%N eqn:Ea.
    - apply N.eqb_eq in Ea. replace (160 <=? b)%N with true by lia. subst a. reflexivity.
    - destruct (a =? 237)%N eqn:Eb; [replace (b <=? 159)%N with true by lia|]; reflexivity. }
  cbn [app utf8_ok]. set (a := (240 + c / 262144)%N). set (b := (128 + c / 4096 mod 64)%N). set (d := (128 + c / 64 mod 64)%N). set (e := (128 + c mod 64)%N).
  assert (E : (128 <= e <= 191)%N) by (subst e; lia).
  assert (D : (128 <= d <= 191)%N) by (subst d; pose proof (mod64 (c / 64)); lia).
  assert (B : (128 <= b <= 191)%N) by (subst b; pose proof (mod64 (c / 4096)); lia).
  assert (A : (240 <= a <= 244)%N) by (subst a; lia).
  assert (A1 : a = 240%N -> (144 <= b)%N).
  { subst a b. intro. assert (c < 262144)%N by lia. assert ((c / 4096) mod 64 = c / 4096)%N by (apply N.mod_small; lia). lia. }
  assert (A2 : a = 244%N -> (b <= 143)%N).
  { subst a b. intro. assert (1048576 <= c < 1114112)%N by lia. assert (E5 : (c / 4096 = (c - 1048576) / 4096 + 4 * 64)%N) by lia. assert (E6 : ((c / 4096) mod 64 = (c - 1048576) / 4096)%N) by (rewrite E5, N.mod_add by lia; apply N.mod_small; lia). rewrite E6. lia. }
  clearbody a b d e. clear S E1 E2 E3 c. unfold utf8_cont.
  replace (a <? 128)%N with false by lia. replace ((194 <=? a) && (a <=? 223))%N with false by lia. replace ((224 <=? a) && (a <=? 239))%N with false by lia. replace ((240 <=? a) && (a <=? 244))%N with true by lia.
  replace ((128 <=? b) && (b <=? 191))%N with true by lia. replace ((128 <=? d) && (d <=? 191))%N with true by lia. replace ((128 <=? e) && (e <=? 191))%N with true by lia.
  destruct (a =? 240)%N eqn:Ea.
  - apply N.eqb_eq in Ea. replace (144 <=? b)%N with true by lia. subst a. reflexivity.
  - destruct (a =? 244)%N eqn:Eb; [replace (b <=? 143)%N with true by lia|]; reflexivity.
Qed.
Lemma bytes2 a b : (194 <= a <= 223)%N -> (128 <= b <= 191)%N -> exists c, scalar c /\ utf8_bytes c = [a; b].
Proof.
  intros A B. exists ((a - 192) * 64 + (b - 128))%N. set (c := ((a - 192) * 64 + (b - 128))%N). assert (C : (128 <= c < 2048)%N) by (subst c; lia). split; [left; lia|]. unfold utf8_bytes.
  replace (c <? 128)%N with false by lia. replace (c <? 2048)%N with true by lia. f_equal; [subst c; lia|f_equal; subst c; lia].
Qed.
Lemma bytes3 a b d : (224 <= a <= 239)%N -> (128 <= b <= 191)%N -> (128 <= d <= 191)%N -> (a = 224%N -> (160 <= b)%N) -> (a = 237%N -> (b <= 159)%N) -> exists c, scalar c /\ utf8_bytes c = [a; b; d].
Proof.
  intros A B D A1 A2. exists ((a - 224) * 4096 + (b - 128) * 64 + (d - 128))%N. set (c := ((a - 224) * 4096 + (b - 128) * 64 + (d - 128))%N).
  assert (C : (2048 <= c < 65536)%N) by (subst c; lia). split; [unfold scalar; subst c; lia|]. unfold utf8_bytes.
  replace (c <? 128)%N with false by lia. replace (c <? 2048)%N with false by lia. replace (c <? 65536)%N with true by lia.
  assert (Q : (c / 64 = (a - 224) * 64 + (b - 128))%N) by (subst c; lia). f_equal; [subst c; lia|f_equal; [rewrite Q; lia|f_equal; subst c; lia]].
Qed.
Lemma bytes4 a b d e : (240 <= a <= 244)%N -> (128 <= b <= 191)%N -> (128 <= d <= 191)%N -> (128 <= e <= 191)%N -> (a = 240%N -> (144 <= b)%N) -> (a = 244%N -> (b <= 143)%N) -> exists c, scalar c /\ utf8_bytes c = [a; b; d; e].
Proof.
  intros A B D E A1 A2. exists ((a - 240) * 262144 + (b - 128) * 4096 + (d - 128) * 64 + (e - 128))%N. set (c := ((a - 240) * 262144 + (b - 128) * 4096 + (d - 128) * 64 + (e - 128))%N).
  assert (C : (65536 <= c < 1114112)%N) by (subst c; lia). split; [unfold scalar; lia|]. unfold utf8_bytes.
  replace (c <? 128)%N with false by lia. replace (c <? 2048)%N with false by lia. replace (c <? 65536)%N with false by lia.
  assert (Q1 : (c / 4096 = (a - 240) * 64 + (b - 128))%N) by (subst c; lia). assert (Q2 : (c / 64 = (a - 240) * 4096 + (b - 128) * 64 + (d - 128))%N) by (subst c; lia).
  f_equal; [subst c; lia|f_equal; [rewrite Q1; lia|f_equal; [rewrite Q2; lia|f_equal; subst c; lia]]].
Qed.
Lemma utf8_more u r c : scalar c -> utf8_bytes c = u -> utf8_text r -> utf8_text (u ++ r).
Proof. intros S E (l & F & ->). exists (c :: l). split; [now constructor|]. cbn [flat_map]. now rewrite E. Qed.
Theorem utf8_decodes b : utf8_ok b = true <-> utf8_text b.
Proof.
  split.
  - enough (X : forall n b, List.length b <= n -> utf8_ok b = true -> utf8_text b) by (apply (X (List.length b)); auto).
    intro n. induction n as [|n IH]; clear b; intros b L H.
    { destruct b; [|cbn in L; lia]. exists []. split; [constructor|reflexivity]. }
    destruct b as [|a x1]; [exists []; split; [constructor|reflexivity]|]. cbn [utf8_ok] in H. cbn [List.length] in L.
    destruct (a <? 128)%N eqn:E1; [apply (@utf8_more [a] x1 a); [left; lia|unfold utf8_bytes; now rewrite E1|apply IH; [lia|exact H]]|].
    destruct ((194 <=? a) && (a <=? 223))%N eqn:E2.
    { destruct x1 as [|b x2]; [discriminate H|]. apply andb_true_iff in H. destruct H as [B H]. unfold utf8_cont in B. destruct (@bytes2 a b) as (c & C & Q); [lia|lia|]. apply (@utf8_more [a; b] x2 c C Q). apply IH; [cbn [List.length] in L; lia|exact H]. }
    destruct ((224 <=? a) && (a <=? 239))%N eqn:E3.
    { destruct x1 as [|b [|d x3]]; try discriminate H. apply andb_true_iff in H. destruct H as [B H]. apply andb_true_iff in B. destruct B as [B A2]. apply andb_true_iff in B. destruct B as [B A1]. apply andb_true_iff in B. destruct B as [B D]. unfold utf8_cont in B, D.
      destruct (@bytes3 a b d) as (c & C & Q); [lia|lia|lia|intros ->; apply N.leb_le, A1|intros ->; apply N.leb_le, A2|]. apply (@utf8_more [a; b; d] x3 c C Q). apply IH; [cbn [List.length] in L; lia|exact H]. }
    destruct ((240 <=? a) && (a <=? 244))%N eqn:E4; [|discriminate H].
    destruct x1 as [|b [|d [|e x4]]]; try discriminate H. apply andb_true_iff in H. destruct H as [B H]. apply andb_true_iff in B. destruct B as [B A2]. apply andb_true_iff in B. destruct B as [B A1]. apply andb_true_iff in B. destruct B as [B E]. apply andb_true_iff in B. destruct B as [B D]. unfold utf8_cont in B, D, E.
    destruct (@bytes4 a b d e) as (c & C & Q); [lia|lia|lia|lia|intros ->; apply N.leb_le, A1|intros ->; apply N.leb_le, A2|]. apply (@utf8_more [a; b; d; e] x4 c C Q). apply IH; [cbn [List.length] in L; lia|exact H].
  - intros (l & F & ->). induction F as [|c l C F IH]; [reflexivity|]. cbn [flat_map]. now rewrite encode_ok.
Qed.

(** Different texts have different bytes, so [utf8_text] says which text it is. *)
Lemma join x y z : (0 < z)%N -> (x / z = y / z)%N -> (x mod z = y mod z)%N -> x = y.
Proof. intros P D M. rewrite (N.div_mod x z), (N.div_mod y z), D, M; [reflexivity|lia|lia]. Qed.
Lemma cons_eq (x y : N) l l' : x :: l = y :: l' -> x = y /\ l = l'.
Proof. intro E. injection E as -> ->. auto. Qed.
Lemma utf8_first c d r r' : scalar c -> scalar d -> utf8_bytes c ++ r = utf8_bytes d ++ r' -> c = d /\ r = r'.
Proof.
  intros C D. unfold scalar in *. unfold utf8_bytes.
  assert (K : forall x, (x / 4096 = x / 64 / 64 /\ x / 262144 = x / 64 / 64 / 64)%N) by (intro x; rewrite !N.div_div by lia; split; reflexivity).
  destruct (K c) as (K1 & K2), (K d) as (K3 & K4). rewrite K2, K1, K4, K3.
  destruct (c <? 128)%N eqn:C1; [|destruct (c <? 2048)%N eqn:C2; [|destruct (c <? 65536)%N eqn:C3]];
    (destruct (d <? 128)%N eqn:D1; [|destruct (d <? 2048)%N eqn:D2; [|destruct (d <? 65536)%N eqn:D3]]); cbn [app]; intro E; repeat (let H := fresh "H" in apply cons_eq in E; destruct E as [H E]); try (exfalso; clear K; lia).
  - split; [lia|assumption].
  - split; [|assumption]. apply (@join c d 64); lia.
  - split; [|assumption]. apply (@join c d 64); [lia| |lia]. apply (@join _ _ 64); lia.
  - split; [|assumption]. apply (@join c d 64); [lia| |lia]. apply (@join _ _ 64); [lia| |lia]. apply (@join _ _ 64); lia.
Qed.
