(** C96 and C97: what is read as a host and as a URI.  The specification is in
    UriText.v. *)
From Coq Require Import ZifyBool ZifyNat ZifyN Permutation String.
From Verif Require Import Base Earley EarleySpec Parse Grammar GrammarSem GrammarLang GrammarWF GrammarVals GrammarCalc
  Syntax Actions Reading HttpText P_Grammar HttpValues SyntaxVals SyntaxDen SyntaxParts SyntaxKit SyntaxMore P_Syntax UriText SyntaxUri.
Open Scope nat_scope.
Open Scope list_scope.
Unset Strict Implicit.
Local Open Scope string_scope.
Local Open Scope list_scope.

(** A text that is read as it is, without complaints. *)
Definition as_text (L : str -> Prop) : reading := fun w v cs => L w /\ v = VStr w /\ cs = [].
Lemma text_reads x L : is_proper x -> (forall nested, textual rec_rules (pyfun nested) x L) -> reads_as x (as_text L).
Proof. intros P T. apply reads_intro; [exact P|]. intro nested. apply n_M, n_text, T. Qed.

(** ** C96: hosts *)

Theorem C96_hosts : reads_as IPv4address (as_text ipv4_text) /\ reads_as IPv6address (as_text ipv6_text) /\
  reads_as host (as_text host_text) /\ reads_as authority (as_text authority_text) /\ reads_as Host (as_text host_and_port).
Proof.
  split; [|split; [|split; [|split]]]; (apply text_reads; [reflexivity|]); intro nested; [apply ipv4_textual|apply ipv6_textual|apply host_textual|apply authority_textual|apply Host_textual].
Qed.
Print Assumptions C96_hosts.
Lemma a_group x : forallb is_hex x && Nat.leb 1 (List.length x) && Nat.leb (List.length x) 4 = true -> group_text x.
Proof. intro E. apply andb_true_iff in E. destruct E as [E L2]. apply andb_true_iff in E. destruct E as [F L1]. apply Nat.leb_le in L1, L2. split; [apply Forall_forall; now apply forallb_forall|auto]. Qed.
Lemma a_byte x : forallb is_digit x && negb (Nat.eqb (List.length x) 0) && (decimal x <=? 255)%N && (negb (hd 0%N x =? 48)%N || Nat.eqb (List.length x) 1) = true -> byte_text x.
Proof.
  intro E. apply andb_true_iff in E. destruct E as [E Z]. apply andb_true_iff in E. destruct E as [E D]. apply andb_true_iff in E. destruct E as [F L]. split; [split; [intros ->; discriminate L|apply Forall_forall; now apply forallb_forall]|]. split; [now apply N.leb_le|].
  intro H. rewrite H in Z. cbn [N.eqb negb orb] in Z. destruct x as [|c [|]]; try discriminate Z. cbn [hd] in H. now subst c.
Qed.
Lemma an_address : ipv4_text (s "192.0.2.255").
Proof. exists [s "192"; s "0"; s "2"; s "255"]. split; [reflexivity|]. split; [reflexivity|]. repeat (constructor; [now apply a_byte|]). constructor. Qed.
Example C96_example :
  ipv6_text (s "1:2:3:4:5:6:7:8") /\ ipv6_text (s "fe80::192.0.2.255") /\ host_and_port (s "[::1%25eth0]:80") /\ authority_text (s "me:%41@a.example:") /\
  ~ byte_text (s "256") /\ ~ byte_text (s "01").
Proof.
  split; [|split; [|split; [|split; [|split]]]].
  - left. exists [s "1"; s "2"; s "3"; s "4"; s "5"; s "6"; s "7"; s "8"]. split; [repeat (constructor; [now apply a_group|]); constructor|]. left. split; reflexivity.
  - right. exists [s "fe80"], 2, (s "192.0.2.255"). split; [constructor; [now apply a_group|constructor]|]. split; [|split; [reflexivity|cbn; lia]]. exists []. split; [constructor|]. right. exists (s "192.0.2.255"). split; [apply an_address|]. split; reflexivity.
  - exists (s "[::1%25eth0]"), (s ":80"). split; [reflexivity|]. split; [|right; exists (s "80"); split; [reflexivity|repeat constructor]]. right. exists (s "::1%25eth0"). split; [reflexivity|]. right. left. exists (s "::1"), (s "eth0"). split; [reflexivity|]. split; [|split; [discriminate|apply encoded_all; repeat constructor]].
    right. exists [], 1, (s "1"). split; [constructor|]. split; [|split; [reflexivity|cbn; lia]]. exists [s "1"]. split; [constructor; [now apply a_group|constructor]|]. left. split; reflexivity.
  - exists (s "me:%41@"), (s "a.example:"). split; [reflexivity|]. split.
    + right. exists (s "me:%41"). split; [reflexivity|]. do 3 (apply encoded_char; [reflexivity|]). apply (@encoded_pct _ 52%N 49%N []); [reflexivity|reflexivity|constructor].
    + exists (s "a.example"), (s ":"). split; [reflexivity|]. split; [left; apply encoded_all; repeat constructor|]. right. exists []. split; [reflexivity|constructor].
  - intros (_ & D & _). apply D. reflexivity.
  - intros (_ & _ & Z). specialize (Z eq_refl). discriminate Z.
Qed.

(** ** C97: URIs *)

Definition absolute_or_partial (w : str) : Prop := absolute_text w \/ partial_text w.
Theorem C97_uris : reads_as URI (as_text uri_text) /\ reads_as URI_reference (as_text reference_text) /\ reads_as Location (as_text reference_text) /\
  reads_as Content_Location (as_text absolute_or_partial) /\ reads_as Referer (as_text absolute_or_partial) /\ reads_as request_target (as_text target_text).
Proof.
  split; [|split; [|split; [|split; [|split]]]]; (apply text_reads; [reflexivity|]); intro nested; [apply uri_textual|apply reference_textual| | | |apply target_textual].
  - apply textual_seal; [reflexivity|apply reference_textual].
  - apply textual_seal; [reflexivity|]. apply textual_alt; [apply absolute_textual|apply partial_textual].
  - apply textual_seal; [reflexivity|]. apply textual_alt; [apply absolute_textual|apply partial_textual].
Qed.
Print Assumptions C97_uris.
Example C97_example :
  uri_text (s "http://[::1]:80/a//b?x=/?#f") /\ partial_text (s "./a:b?c") /\ ~ partial_text (s "a:b") /\ origin_text (s "//a/b") /\
  ~ located (s "//a b").
Proof.
  assert (P : forall w, forallb (fun c => is_pchar c || (c =? 47)%N || (c =? 63)%N) w = true -> query_text w) by (intros w F; apply encoded_all, Forall_forall; now apply forallb_forall).
  assert (Q : forall w, forallb (fun c => is_pchar c || (c =? 47)%N) w = true -> path_text w) by (intros w F; apply encoded_all, Forall_forall; now apply forallb_forall).
  assert (B : forall L w, path_text w -> ~ In 63%N w /\ ~ In 35%N w /\ ~ In 32%N w \/ L).
  { intros L w E. left. assert (X : forall c, is_hex c = true -> c <> 63%N /\ c <> 35%N /\ c <> 32%N) by (intros c C; repeat split; intros ->; discriminate C).
    induction E as [|c w H E IH|h l w Hh Hl E IH]; [repeat split; intros []| |].
    - destruct IH as (I1 & I2 & I3). repeat split; (intros [K|K]; [subst c; discriminate H|auto]).
    - destruct IH as (I1 & I2 & I3). destruct (X h Hh) as (a1 & a2 & a3), (X l Hl) as (b1 & b2 & b3). repeat split; intros [K|[K|[K|K]]]; try discriminate K; auto. }
  split; [|split; [|split; [|split]]].
  - exists (s "http://[::1]:80/a//b?x=/?"), (s "#f"). split; [reflexivity|]. split; [|right; exists (s "f"); split; [reflexivity|now apply P]].
    exists (s "http"), (s "//[::1]:80/a//b"), (s "?x=/?"). split; [reflexivity|]. split; [exists 104%N, (s "ttp"); split; [reflexivity|]; split; [reflexivity|repeat constructor]|]. split; [|right; exists (s "x=/?"); split; [reflexivity|now apply P]].
    exists (s "//[::1]:80"), (s "/a//b"). split; [reflexivity|]. split; [now apply Q|]. left. split; [|right; exists (s "a//b"); reflexivity]. exists (s "[::1]:80"). split; [reflexivity|]. exists [], (s "[::1]:80"). split; [reflexivity|]. split; [now left|].
    exists (s "[::1]"), (s ":80"). split; [reflexivity|]. split; [|right; exists (s "80"); split; [reflexivity|repeat constructor]]. right. exists (s "::1"). split; [reflexivity|]. left. right. exists [], 1, (s "1"). split; [constructor|]. split; [|split; [reflexivity|cbn; lia]]. exists [s "1"]. split; [constructor; [now apply a_group|constructor]|]. left. split; reflexivity.
  - exists (s "./a:b"), (s "?c"). split; [reflexivity|]. split; [|split; [|right; exists (s "c"); split; [reflexivity|now apply P]]].
    + exists [], (s "./a:b"). split; [reflexivity|]. split; [now apply Q|]. right. split; [reflexivity|]. intros (y & E). discriminate E.
    + intros (x & y & E & I). destruct x as [|c x]; [discriminate E|]. injection E as <- E. destruct x as [|c x]; [discriminate E|]. injection E as <- E. apply I. right. now left.
  - intros (h & q & E & H & K & R). apply K. destruct R as [->|(x & -> & _)]; [rewrite app_nil_r in E; subst h; exists (s "a"), (s "b"); split; [reflexivity|intros [C|[]]; discriminate C]|].
    exfalso. assert (I : In 63%N (s "a:b")) by (rewrite E; apply in_app_iff; right; now left). destruct I as [C|[C|[C|[]]]]; discriminate C.
  - exists (s "//a/b"), []. split; [reflexivity|]. split; [now apply Q|]. split; [exists (s "/a/b"); reflexivity|now left].
  - intros (a & p & E & Ep & [((x & -> & X) & Z)|(-> & Z)]); [|cbn [app] in E; subst p; apply Z; exists (s "a b"); reflexivity].
    assert (S1 : exists u v, s "a b" = u ++ v /\ authority_text u /\ path_text v /\ (v = [] \/ starts (s "/") v)) by (exists x, p; injection E as E; auto). clear - S1 B.
    destruct S1 as (u & v & E & U & V & Z). destruct Z as [->|(z & ->)]; [|assert (I : In 47%N (s "a b")) by (rewrite E; apply in_app_iff; right; now left); destruct I as [C|[C|[C|[]]]]; discriminate C].
    rewrite app_nil_r in E. subst u. destruct U as (u & h & E & [->|(x & -> & _)] & H); [|assert (I : In 64%N (s "a b")) by (rewrite E; apply in_app_iff; left; apply in_app_iff; right; now left); destruct I as [C|[C|[C|[]]]]; discriminate C].
    cbn [app] in E. subst h. destruct H as (h & p & E & H & [->|(d & -> & _)]); [|assert (I : In 58%N (s "a b")) by (rewrite E; apply in_app_iff; right; now left); destruct I as [C|[C|[C|[]]]]; discriminate C].
    rewrite app_nil_r in E. subst h. destruct H as [H|(x & C & _)]; [|discriminate C].
    assert (H' : path_text (s "a b")) by (revert H; apply encoded_impl; intros c C; unfold is_pchar; now rewrite C). destruct (B False _ H') as [(_ & _ & C)|[]]. apply C. right. now left.
Qed.
