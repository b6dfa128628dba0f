(** C68-C70: what HTTPolice makes of HAR files. *)
From Coq Require Import ZifyBool ZifyNat ZifyN.
From Verif Require Import Base Text Structure Har.
Open Scope nat_scope.
Open Scope list_scope.
Unset Strict Implicit.
Local Open Scope string_scope.
Local Open Scope list_scope.

(** * Reading of JSON *)

(** [j] is an object with the member [k], whose value is [v]. *)
Definition has (j : json) (k : string) (v : json) : Prop := exists l, j = JObj l /\ lookup l (s k) = Some v.
(** ... an object without it. *)
Definition lacks (j : json) (k : string) : Prop := exists l, j = JObj l /\ lookup l (s k) = None.
(** A text with at least one character, or none given: no member, null, or the empty string. *)
Definition gives_text (j : json) (k : string) (t : option str) : Prop :=
  match t with
  | Some t => t <> [] /\ has j k (JStr t)
  | None => lacks j k \/ has j k JNull \/ has j k (JStr [])
  end.

Lemma item_iff j k v : item j k = Ok v <-> has j k v.
Proof.
  unfold item, has. split.
  - destruct j as [| | | | | |l]; try discriminate. destruct (lookup l (s k)) eqn:L; [|discriminate]. intro H. injection H as <-. eauto.
  - intros (l & -> & ->). reflexivity.
Qed.
Lemma get_has j k v : has j k v -> get_item j k = Ok (Some v).
Proof. intros (l & -> & L). cbn [get_item]. now rewrite L. Qed.
Lemma get_lacks j k : lacks j k -> get_item j k = Ok None.
Proof. intros (l & -> & L). cbn [get_item]. now rewrite L. Qed.
Lemma get_iff j k o : get_item j k = Ok o <-> match o with Some v => has j k v | None => lacks j k end.
Proof.
  split; [|destruct o; [apply get_has|apply get_lacks]]. destruct j as [| | | | | |l]; try discriminate. cbn [get_item]. intro H. injection H as H. destruct o; exists l; auto.
Qed.

(** * C68: the exchanges of a proper file *)

(** A message: its version and headers. *)
Definition gives_message (j : json) (http : str) (headers : list (str * str)) : Prop :=
  has j "httpVersion" (JStr http) /\
  exists l, has j "headers" (JList l) /\ Forall2 (fun d h => has d "name" (JStr (fst h)) /\ has d "value" (JStr (snd h))) l headers.

Record sent := Sent { s_method : str; s_url : str; s_http : str; s_headers : list (str * str); s_size : Z; s_post : option str }.
Definition gives_request (j : json) (x : sent) : Prop :=
  has j "method" (JStr (s_method x)) /\ has j "url" (JStr (s_url x)) /\ gives_message j (s_http x) (s_headers x) /\
  has j "bodySize" (JInt (s_size x)) /\
  match s_post x with
  | Some t => t <> [] /\ exists p, has j "postData" p /\ has p "text" (JStr t)
  | None => lacks j "postData" \/ has j "postData" JNull \/ exists p, has j "postData" p /\ gives_text p "text" None
  end.

Record received := Received {
  r_status : Z; r_reason : str; r_http : str; r_headers : list (str * str);
  r_size : Z; r_length : Z; r_text : option str; r_encoding : option str
}.
Definition gives_response (j : json) (x : received) : Prop :=
  has j "status" (JInt (r_status x)) /\ has j "statusText" (JStr (r_reason x)) /\ gives_message j (r_http x) (r_headers x) /\
  has j "bodySize" (JInt (r_size x)) /\
  exists c, has j "content" c /\ has c "size" (JInt (r_length x)) /\ gives_text c "text" (r_text x) /\
    match r_encoding x with Some e => has c "encoding" (JStr e) | None => lacks c "encoding" end.

Definition gives_entry (j : json) (x : sent * received) : Prop :=
  exists q p, has j "request" q /\ gives_request q (fst x) /\ has j "response" p /\ gives_response p (snd x).
Definition gives_file (j : json) (creator : str) (xs : list (sent * received)) : Prop :=
  exists log c l, has j "log" log /\ has log "creator" c /\ has c "name" (JStr creator) /\
    has log "entries" (JList l) /\ Forall2 gives_entry l xs.

(** Browsers misreport versions. *)
Definition browser (creator : str) : Prop := In creator [s "WebInspector"; s "Firefox"; s "F12 Developer Tools"].
Definition expected_version (creator http : str) (v : option str) : Prop :=
  match v with
  | Some v => v = http /\ (exists t, http = s "HTTP/" ++ t) /\ ~ browser creator
  | None => browser creator \/ ~ exists t, http = s "HTTP/" ++ t
  end.
(** HTTP/2 pseudo-headers, whose names begin with a colon, are left out. *)
Definition pseudo_free (name : str) : bool := match name with 58%N :: _ => false | _ => true end.
Definition real_headers (l : list (str * str)) : list (str * str) :=
  map (fun h => (fst h, to_latin1 (snd h))) (filter (fun h => pseudo_free (fst h)) l).
Definition is_in (t x : str) : Prop := exists a b, x = a ++ t ++ b.

Definition expected_request (H : har_env) (creator : str) (x : sent) (r : har_request) : Prop :=
  exists scheme netloc path query, h_urlparse H (s_url x) = Some (scheme, netloc, path, query) /\
  hq_scheme r = scheme /\ hq_method r = s_method x /\ expected_version creator (s_http x) (hq_version r) /\
  hq_headers r = real_headers (s_headers x) /\
  (s_method x = s "CONNECT" -> hq_target r = netloc) /\
  (s_method x <> s "CONNECT" -> (exists h, In h (s_headers x) /\ lower (fst h) = s "host") ->
     hq_target r = path ++ (if str_eqb query [] then [] else s "?" ++ query)) /\
  (s_method x <> s "CONNECT" -> (~ exists h, In h (s_headers x) /\ lower (fst h) = s "host") -> hq_target r = s_url x) /\
  let debug := creator = s "Fiddler" /\ s_method x = s "CONNECT" /\ exists t, s_post x = Some t /\ is_in (s "Fiddler") t in
  (debug -> hq_body r = Avail [] /\ hq_text r = None) /\
  (~ debug -> (s_size x = 0%Z -> hq_body r = Avail []) /\ ((s_size x > 0)%Z -> hq_body r = Unavail None) /\
              ((s_size x < 0)%Z -> hq_body r = Absent) /\ hq_text r = option_map JStr (s_post x)).

Definition expected_response (H : har_env) (creator method : str) (x : received) (r : har_response) : Prop :=
  let tunnel := creator = s "Fiddler" /\ method = s "CONNECT" /\ (200 <= r_status x <= 299)%Z in
  hp_status r = r_status x /\ hp_reason r = Some (r_reason x) /\ expected_version creator (r_http x) (hp_version r) /\
  (~ tunnel -> hp_headers r = real_headers (r_headers x)) /\
  (tunnel -> hp_headers r = filter (fun h => negb (existsb (str_eqb (lower (fst h))) [s "endtime"; s "clienttoserverbytes"; s "servertoclientbytes"]))
                                   (real_headers (r_headers x))) /\
  (* The text of the content: nothing, Base64, not Base64, or plain. *)
  let base64 t := exists e, r_encoding x = Some e /\ lower e = s "base64" /\ r_status x <> 304%Z /\ r_text x = Some t in
  (forall d, hp_decoded r = Some d <-> exists t, base64 t /\ h_base64 H t = Some d /\ ~ (tunnel /\ is_in (s "Fiddler") d)) /\
  (forall t, hp_text r = Some t <-> r_encoding x = None /\ r_status x <> 304%Z /\ exists t', r_text x = Some t' /\ t = JStr t') /\
  let debug := tunnel /\ exists t d, base64 t /\ h_base64 H t = Some d /\ is_in (s "Fiddler") d in
  let empty := r_size x = 0%Z \/ r_length x = 0%Z \/ r_status x = 304%Z in
  (debug \/ empty -> hp_body r = Avail []) /\
  (~ debug -> ~ empty -> creator = s "Firefox" -> hp_body r = Absent) /\
  (~ debug -> ~ empty -> creator <> s "Firefox" -> (r_size x > 0 \/ r_length x > 0)%Z -> hp_body r = Unavail None) /\
  (~ debug -> ~ empty -> creator <> s "Firefox" -> (r_size x < 0 /\ r_length x < 0)%Z -> hp_body r = Absent).

Definition expected_exchange (H : har_env) (creator : str) (x : sent * received) (e : har_exchange) : Prop :=
  expected_request H creator (fst x) (fst e) /\
  (r_status (snd x) = 0%Z -> snd e = []) /\
  (r_status (snd x) <> 0%Z -> exists r, snd e = [r] /\ expected_response H creator (s_method (fst x)) (snd x) r).

Lemma starts_iff x t : starts_with x t = true <-> exists y, x = t ++ y.
Proof.
  revert x. induction t as [|c t IH]; intro x.
  - split; [intros _; exists x; reflexivity|]. intros _. destruct x; reflexivity.
  - destruct x as [|d x]; [split; [discriminate|intros (y & E); discriminate]|]. cbn [starts_with]. rewrite andb_true_iff, N.eqb_eq, IH. split.
    + intros [-> (y & ->)]. exists y. reflexivity.
    + intros (y & E). injection E as -> ->. eauto.
Qed.
Lemma occurs_iff t x : occurs_in t x = true <-> is_in t x.
Proof.
  unfold is_in. induction x as [|c x IH]; cbn [occurs_in]; rewrite orb_true_iff, starts_iff.
  - split; [intros [(y & E)|K]; [exists [], y; exact E|discriminate]|]. intros (a & b & E). left. destruct a; [exists b; exact E|discriminate].
  - rewrite IH. split.
    + intros [(y & E)|(a & b & ->)]; [exists [], y; exact E|exists (c :: a), b; reflexivity].
    + intros ([|d a] & b & E); [left; exists b; exact E|]. injection E as -> ->. right. eauto.
Qed.
Lemma is_text_iff x t : is_text (JStr x) t = true <-> x = s t.
Proof. cbn [is_text]. apply str_eqb_eq. Qed.
Lemma version_ok creator http :
  expected_version creator http (if starts_with http (s "HTTP/") && negb (is_one_of (JStr creator) (CHROME ++ FIREFOX ++ EDGE)) then Some http else None).
Proof.
  assert (B : is_one_of (JStr creator) (CHROME ++ FIREFOX ++ EDGE) = true <-> browser creator).
  { unfold is_one_of, browser. rewrite existsb_exists. cbn [CHROME FIREFOX EDGE app In]. split.
    - intros (t & [<-|[<-|[<-|[]]]] & K); apply is_text_iff in K; auto.
    - intros [<-|[<-|[<-|[]]]]; eexists; (split; [|apply is_text_iff; reflexivity]); auto. }
  destruct (starts_with http (s "HTTP/")) eqn:S; cbn [andb].
  - apply starts_iff in S. destruct (is_one_of _ _) eqn:O; cbn [negb expected_version].
    + left. now apply B.
    + split; [reflexivity|]. split; [exact S|]. rewrite <- B. congruence.
  - right. intro K. apply starts_iff in K. congruence.
Qed.

Lemma pseudo_starts n : starts_with n (s ":") = negb (pseudo_free n).
Proof.
  change (s ":") with [58%N]. destruct n as [|c n]; [reflexivity|]. cbn [starts_with]. assert (starts_with n [] = true) as -> by (destruct n; reflexivity).
  rewrite andb_true_r. destruct (N.eqb_spec c 58) as [->|NE]; [reflexivity|]. destruct c as [|p]; [reflexivity|]. repeat (destruct p as [p|p|]; try reflexivity; try congruence).
Qed.
Lemma fst_pop {V} (l : list (str * V)) : forall r, fst (pop_pseudo l r) = filter (fun h => pseudo_free (fst h)) l.
Proof.
  induction l as [|[n v] l IH]; intro r; [reflexivity|]. cbn [pop_pseudo filter fst]. rewrite pseudo_starts. destruct (pseudo_free n); cbn [negb]; [|apply IH].
  destruct (pop_pseudo l r) eqn:P. cbn [fst]. f_equal. specialize (IH r). rewrite P in IH. exact IH.
Qed.

Section Proper.
Variable H : har_env.

Lemma message_ok j http headers creator : gives_message j http headers ->
  exists v, process_message H j (JStr creator) = Ok (v, map (fun h => (fst h, JStr (snd h))) (filter (fun h => pseudo_free (fst h)) headers)) /\
    expected_version creator http v.
Proof.
  intros (Hv & l & Hl & F). unfold process_message. rewrite (proj2 (item_iff _ _ _) Hl). cbn [andThen iterate].
  assert (E : each_ok (fun d => n <-- item d "name" ;; v <-- item d "value" ;; Ok (text_of H n, v)) l = Ok (map (fun h => (fst h, JStr (snd h))) headers)).
  { clear Hl. induction F as [|d h l headers [A B] F IH]; [reflexivity|]. cbn [each_ok map]. rewrite (proj2 (item_iff _ _ _) A). cbn [andThen]. rewrite (proj2 (item_iff _ _ _) B). cbn [andThen]. rewrite IH. reflexivity. }
  rewrite E. cbn [andThen]. rewrite (proj2 (item_iff _ _ _) Hv). cbn [andThen]. eexists. split; [|apply version_ok]. do 2 f_equal. unfold pop_pseudo_headers. rewrite fst_pop.
  clear. induction headers as [|h l IH]; [reflexivity|]. cbn [map filter fst]. destruct (pseudo_free (fst h)); cbn [map]; now rewrite IH.
Qed.
Lemma headers_ok l : each_ok header_entry (map (fun h => (fst h, JStr (snd h))) l) = Ok (map (fun h => (fst h, to_latin1 (snd h))) l).
Proof. induction l as [|h l IH]; [reflexivity|]. cbn [map each_ok header_entry snd fst andThen]. rewrite IH. reflexivity. Qed.
Lemma host_found headers :
  existsb (fun e : str * json => ci_eq (fst e) (s "Host")) (map (fun h => (fst h, JStr (snd h))) (filter (fun h => pseudo_free (fst h)) headers)) = true <->
  exists h, In h headers /\ lower (fst h) = s "host".
Proof.
  rewrite existsb_exists. split.
  - intros (e & I & E). apply in_map_iff in I. destruct I as (h & <- & I). apply filter_In in I. exists h. split; [apply I|]. cbn [fst] in E. unfold ci_eq in E. now apply str_eqb_eq in E.
  - intros (h & I & E). exists (fst h, JStr (snd h)). split; [|unfold ci_eq; apply str_eqb_eq; exact E]. apply in_map_iff. exists h. split; [reflexivity|]. apply filter_In. split; [exact I|].
    apply not_false_iff_true. intro K. assert (S : starts_with (fst h) (s ":") = true) by (rewrite pseudo_starts, K; reflexivity). apply starts_iff in S. destruct S as (y & S). rewrite S in E. discriminate E.
Qed.

Lemma request_ok j creator x : gives_request j x -> h_urlparse H (s_url x) <> None ->
  exists r, process_request H j (JStr creator) = Ok r /\ expected_request H creator x r.
Proof.
  intros (Hm & Hu & Hg & Hs & Hp) Un. destruct (message_ok creator Hg) as (v & P & V). unfold process_request. rewrite P. cbn [andThen].
  rewrite (proj2 (item_iff _ _ _) Hm). cbn [andThen]. rewrite (proj2 (item_iff _ _ _) Hu). cbn [andThen parse_url].
  destruct (h_urlparse H (s_url x)) as [[[[scheme netloc] path] query]|] eqn:U; [|congruence]. cbn [andThen]. rewrite (proj2 (item_iff _ _ _) Hs). cbn [andThen is_zero above_zero].
  set (body := if Z.eqb (s_size x) 0 then Avail [] else if (0 <? s_size x)%Z then Unavail None else Absent : har_body).
  assert (Eb : (if Z.eqb (s_size x) 0 then Ok (Avail []) else Ok (if (0 <? s_size x)%Z then Unavail None else Absent)) = Ok body) by (unfold body; destruct (Z.eqb (s_size x) 0); reflexivity).
  rewrite Eb. cbn [andThen].
  assert (Ep : exists post, get_item j "postData" = Ok post /\
     match post with Some p => if is_true p then t <-- get_item p "text" ;; Ok (match t with Some t => if is_true t then Some t else None | None => None end) else Ok None | None => Ok None end = Ok (option_map JStr (s_post x))).
  { destruct (s_post x) as [t|].
    - destruct Hp as (Nt & p & Hp & Ht). exists (Some p). split; [now apply get_has|]. assert (is_true p = true) as -> by (destruct Ht as ([|? ?] & -> & L); [discriminate|reflexivity]).
      rewrite (get_has Ht). cbn [andThen]. destruct t; [congruence|reflexivity].
    - destruct Hp as [Hp|[Hp|(p & Hp & Ht)]]; [exists None; split; [now apply get_lacks|reflexivity]|exists (Some JNull); split; [now apply get_has|reflexivity]|].
      exists (Some p). split; [now apply get_has|]. destruct (is_true p); [|reflexivity]. destruct Ht as [Ht|[Ht|Ht]]; [rewrite (get_lacks Ht)|rewrite (get_has Ht)|rewrite (get_has Ht)]; reflexivity. }
  destruct Ep as (post & Ep1 & Ep2). rewrite Ep1. cbn [andThen]. rewrite Ep2. cbn [andThen].
  assert (Dr : exists drop, match option_map JStr (s_post x) with Some t => if is_one_of (JStr creator) FIDDLER && is_text (JStr (s_method x)) "CONNECT" then contains_text "Fiddler" t else Ok false | None => Ok false end = Ok drop /\
     (drop = true <-> creator = s "Fiddler" /\ s_method x = s "CONNECT" /\ exists t, s_post x = Some t /\ is_in (s "Fiddler") t)).
  { destruct (s_post x) as [t|]; cbn [option_map].
    2:{ exists false. split; [reflexivity|]. split; [discriminate|]. intros (_ & _ & t & K & _). discriminate. }
    cbn [is_one_of FIDDLER existsb]. rewrite orb_false_r. destruct (is_text (JStr creator) "Fiddler" && is_text (JStr (s_method x)) "CONNECT") eqn:E.
    - apply andb_true_iff in E. destruct E as [E1 E2]. apply is_text_iff in E1, E2. cbn [contains_text]. eexists. split; [reflexivity|]. rewrite occurs_iff. split; [intro K; eauto 6|]. intros (_ & _ & t' & K & I). injection K as <-. exact I.
    - exists false. split; [reflexivity|]. split; [discriminate|]. intros (E1 & E2 & _). apply is_text_iff in E1, E2. rewrite E1, E2 in E. discriminate. }
  destruct Dr as (drop & D1 & D2). rewrite D1. cbn [andThen]. rewrite headers_ok. cbn [andThen]. eexists. split; [reflexivity|].
  exists scheme, netloc, path, query. cbn [hq_scheme hq_method hq_version hq_headers hq_target hq_body hq_text text_of].
  split; [exact U|]. split; [reflexivity|]. split; [reflexivity|]. split; [exact V|]. split; [reflexivity|].
  split; [intro C; apply is_text_iff in C; now rewrite C|].
  assert (Nc : s_method x <> s "CONNECT" -> is_text (JStr (s_method x)) "CONNECT" = false) by (intro N; apply not_true_iff_false; now rewrite is_text_iff).
  split; [intros N Ho; rewrite (Nc N); apply host_found in Ho; rewrite Ho; destruct query; reflexivity|].
  split; [intros N Ho; rewrite (Nc N); rewrite <- host_found in Ho; apply not_true_iff_false in Ho; now rewrite Ho|].
  cbv zeta. split.
  - intro D. apply D2 in D. subst drop. auto.
  - intro N. assert (drop = false) as -> by (apply not_true_iff_false; now rewrite D2). unfold body. split; [intros ->; reflexivity|]. split.
    + intro G. assert (Z.eqb (s_size x) 0 = false) as -> by lia. assert ((0 <? s_size x)%Z = true) as -> by lia. reflexivity.
    + split; [|reflexivity]. intro G. assert (Z.eqb (s_size x) 0 = false) as -> by lia. assert ((0 <? s_size x)%Z = false) as -> by lia. reflexivity.
Qed.

Lemma filter_entries (f : str -> bool) (l : list (str * str)) :
  filter (fun e : str * json => f (fst e)) (map (fun h => (fst h, JStr (snd h))) l) = map (fun h => (fst h, JStr (snd h))) (filter (fun h => f (fst h)) l).
Proof. induction l as [|h l IH]; [reflexivity|]. cbn [map filter fst]. destruct (f (fst h)); cbn [map]; now rewrite IH. Qed.
Lemma filter_latin1 (f : str -> bool) (l : list (str * str)) :
  filter (fun h => f (fst h)) (map (fun h => (fst h, to_latin1 (snd h))) l) = map (fun h => (fst h, to_latin1 (snd h))) (filter (fun h => f (fst h)) l).
Proof. induction l as [|h l IH]; [reflexivity|]. cbn [map filter fst]. destruct (f (fst h)); cbn [map]; now rewrite IH. Qed.

Lemma response_ok j creator method x : gives_response j x ->
  (r_status x = 0%Z -> process_response H j method (JStr creator) = Ok None) /\
  (r_status x <> 0%Z -> exists r, process_response H j method (JStr creator) = Ok (Some r) /\ expected_response H creator method x r).
Proof.
  intros (Hst & Hre & Hg & Hs & c & Hc & Hl & Ht & He). unfold process_response. rewrite (proj2 (item_iff _ _ _) Hst). cbn [andThen is_zero].
  split; [intros ->; reflexivity|]. intro N0. assert (Z.eqb (r_status x) 0 = false) as -> by lia.
  destruct (message_ok creator Hg) as (v & P & V). rewrite P. cbn [andThen to_int]. rewrite (proj2 (item_iff _ _ _) Hre). cbn [andThen].
  set (tunnel := is_one_of (JStr creator) FIDDLER && str_eqb method (s "CONNECT") && ((200 <=? r_status x) && (r_status x <=? 299))%Z).
  assert (T : tunnel = true <-> creator = s "Fiddler" /\ method = s "CONNECT" /\ (200 <= r_status x <= 299)%Z).
  { unfold tunnel. cbn [is_one_of FIDDLER existsb]. rewrite orb_false_r, !andb_true_iff, is_text_iff, str_eqb_eq, !Z.leb_le. tauto. }
  clearbody tunnel.
  set (kept := fun n : str => negb (existsb (str_eqb (lower n)) [s "endtime"; s "clienttoserverbytes"; s "servertoclientbytes"])).
  set (hs := filter (fun h => pseudo_free (fst h)) (r_headers x)).
  assert (Eh : (if tunnel then filter (fun e : str * json => negb (existsb (fun n => ci_eq (fst e) (s n)) ["EndTime"; "ClientToServerBytes"; "ServerToClientBytes"])) (map (fun h => (fst h, JStr (snd h))) hs)
     else map (fun h => (fst h, JStr (snd h))) hs) = map (fun h => (fst h, JStr (snd h))) (if tunnel then filter (fun h => kept (fst h)) hs else hs)).
  { destruct tunnel; [|reflexivity]. exact (filter_entries kept hs). }
  rewrite Eh. rewrite (proj2 (item_iff _ _ _) Hs). cbn [andThen is_zero above_zero]. rewrite (proj2 (item_iff _ _ _) Hc). cbn [andThen]. rewrite (proj2 (item_iff _ _ _) Hl). cbn [andThen is_zero above_zero].
  set (none := Z.eqb (r_size x) 0 || (Z.eqb (r_length x) 0 || (r_status x =? 304)%Z)).
  assert (En : (if Z.eqb (r_size x) 0 then Ok true else Ok (Z.eqb (r_length x) 0 || (r_status x =? 304)%Z)) = Ok none) by (unfold none; destruct (Z.eqb (r_size x) 0); reflexivity).
  rewrite En. cbn [andThen].
  set (body := if none then Avail [] else if is_one_of (JStr creator) FIREFOX then Absent else if (0 <? r_size x)%Z then Unavail None else if (0 <? r_length x)%Z then Unavail None else Absent : har_body).
  assert (Eb : (if none then Ok (Avail []) else if is_one_of (JStr creator) FIREFOX then Ok Absent else if (0 <? r_size x)%Z then Ok (Unavail None) else Ok (if (0 <? r_length x)%Z then Unavail None else Absent)) = Ok body).
  { unfold body. destruct none, (is_one_of (JStr creator) FIREFOX), (0 <? r_size x)%Z; reflexivity. }
  rewrite Eb. cbn [andThen]. rewrite headers_ok. cbn [andThen text_of].
  set (resp := HarResponse v (r_status x) (Some (r_reason x)) (map (fun h => (fst h, to_latin1 (snd h))) (if tunnel then filter (fun h => kept (fst h)) hs else hs))).
  set (base64 := fun t => exists e, r_encoding x = Some e /\ lower e = s "base64" /\ r_status x <> 304%Z /\ r_text x = Some t).
  (* What is left depends on the text. *)
  set (debug := tunnel = true /\ exists t d', base64 t /\ h_base64 H t = Some d' /\ is_in (s "Fiddler") d').
  assert (R : forall b d u, debug \/ ~ debug ->
     (forall d', d = Some d' <-> exists t, base64 t /\ h_base64 H t = Some d' /\ ~ (tunnel = true /\ is_in (s "Fiddler") d')) ->
     (forall t, u = Some t <-> r_encoding x = None /\ r_status x <> 304%Z /\ exists t', r_text x = Some t' /\ t = JStr t') ->
     (debug -> b = Avail []) -> (~ debug -> b = body) ->
     expected_response H creator method x (resp b d u)).
  { intros b d u Dec Dd Du Db1 Db2. unfold expected_response, resp. cbn [hp_status hp_reason hp_version hp_headers hp_decoded hp_text hp_body]. cbv zeta. fold base64.
    setoid_rewrite <- T. fold debug. split; [reflexivity|]. split; [reflexivity|]. split; [exact V|].
    split; [intro N; apply not_true_iff_false in N; now rewrite N|]. split; [intros ->; unfold real_headers; rewrite <- (filter_latin1 kept); reflexivity|].
    split; [exact Dd|]. split; [exact Du|].
    assert (Nn : none = true <-> r_size x = 0%Z \/ r_length x = 0%Z \/ r_status x = 304%Z) by (unfold none; rewrite !orb_true_iff; lia).
    assert (Ff : is_one_of (JStr creator) FIREFOX = true <-> creator = s "Firefox") by (cbn [is_one_of FIREFOX existsb]; rewrite orb_false_r; apply is_text_iff).
    rewrite <- Nn. clearbody none. split.
    - destruct Dec as [Y|N]; [intros _; now apply Db1|]. intros [D|D]; [now apply Db1|]. rewrite Db2 by exact N. unfold body. now rewrite D.
    - split; [|split].
      + intros D N F. rewrite Db2 by exact D. unfold body. apply not_true_iff_false in N. apply Ff in F. now rewrite N, F.
      + intros D N F S. rewrite Db2 by exact D. unfold body. apply not_true_iff_false in N. rewrite <- Ff in F. apply not_true_iff_false in F. rewrite N, F. destruct (0 <? r_size x)%Z eqn:S1; [reflexivity|]. assert ((0 <? r_length x)%Z = true) as -> by lia. reflexivity.
      + intros D N F S. rewrite Db2 by exact D. unfold body. apply not_true_iff_false in N. rewrite <- Ff in F. apply not_true_iff_false in F. rewrite N, F. assert ((0 <? r_size x)%Z = false) as -> by lia. assert ((0 <? r_length x)%Z = false) as -> by lia. reflexivity. }
  (* No text. *)
  assert (R0 : (forall t, ~ base64 t) -> (~ (r_encoding x = None /\ r_status x <> 304%Z /\ exists t', r_text x = Some t')) -> expected_response H creator method x (resp body None None)).
  { intros N M. apply R.
    - right. intros (_ & t & d' & K & _). now apply N in K.
    - intro d'. split; [discriminate|]. intros (t & K & _). now apply N in K.
    - intro t. split; [discriminate|]. intros (A & B & t' & C & _). exfalso. apply M. eauto.
    - intros (_ & t & d' & K & _). now apply N in K.
    - reflexivity. }
  destruct (r_text x) as [t|] eqn:Et.
  2:{ assert (expected_response H creator method x (resp body None None)) as K.
      { apply R0; [intros t (e & _ & _ & _ & K)|intros (_ & _ & t & K)]; discriminate. }
      destruct Ht as [Ht|[Ht|Ht]]; [rewrite (get_lacks Ht)|rewrite (get_has Ht)|rewrite (get_has Ht)]; cbn [andThen is_true andb]; eexists; (split; [reflexivity|exact K]). }
  destruct Ht as [Nt Ht]. rewrite (get_has Ht). cbn [andThen]. assert (is_true (JStr t) = true) as -> by (destruct t; [congruence|reflexivity]). cbn [andb].
  destruct (r_status x =? 304)%Z eqn:S3; cbn [negb].
  { eexists. split; [reflexivity|]. apply R0; [intros t' (e & _ & _ & K & _); lia|intros (_ & K & _); lia]. }
  destruct (r_encoding x) as [e|] eqn:Ee.
  2:{ rewrite (get_lacks He). cbn [andThen]. eexists. split; [reflexivity|]. apply R.
      - right. intros (_ & t' & d' & (e & K & _) & _). discriminate.
      - intro d'. split; [discriminate|]. intros (t' & (e & K & _) & _). discriminate.
      - intro t'. split; [intro K; injection K as <-; split; [reflexivity|]; split; [lia|]; eauto|]. intros (_ & _ & t2 & K & ->). injection K as <-. reflexivity.
      - intros (_ & t' & d' & (e & K & _) & _). discriminate.
      - reflexivity. }
  rewrite (get_has He). cbn [andThen]. destruct (str_eqb (lower e) (s "base64")) eqn:B.
  2:{ eexists. split; [reflexivity|]. apply R0; [intros t' (e' & K & K2 & _); injection K as <-; apply str_eqb_eq in K2; congruence|intros (K & _); discriminate]. }
  apply str_eqb_eq in B. assert (Bt : base64 t) by (exists e; repeat split; auto; lia).
  assert (Bu : forall t', base64 t' -> t' = t) by (intros t' (e' & _ & _ & _ & K); congruence).
  destruct (h_base64 H t) as [d|] eqn:B64.
  2:{ eexists. split; [reflexivity|]. apply R.
      - right. intros (_ & t' & d' & K & K2 & _). apply Bu in K. congruence.
      - intro d'. split; [discriminate|]. intros (t' & K & K2 & _). apply Bu in K. congruence.
      - intro t'. split; [discriminate|]. intros (K & _). discriminate.
      - intros (_ & t' & d' & K & K2 & _). apply Bu in K. congruence.
      - reflexivity. }
  destruct (tunnel && occurs_in (s "Fiddler") d) eqn:Q.
  - apply andb_true_iff in Q. destruct Q as [Q1 Q2]. apply occurs_iff in Q2. eexists. split; [reflexivity|]. apply R.
    + left. split; [exact Q1|]. eauto.
    + intro d'. split; [discriminate|]. intros (t' & K & K2 & K3). apply Bu in K. subst t'. exfalso. apply K3. split; [exact Q1|]. congruence.
    + intro t'. split; [discriminate|]. intros (K & _). discriminate.
    + reflexivity.
    + intro K. exfalso. apply K. split; [exact Q1|]. eauto.
  - assert (Nd : ~ (tunnel = true /\ is_in (s "Fiddler") d)) by (intros [K1 K2]; apply occurs_iff in K2; rewrite K1, K2 in Q; discriminate).
    assert (Nb : ~ debug) by (intros (K0 & t' & d' & K & K2 & K3); apply Bu in K; apply Nd; split; [exact K0|]; congruence).
    eexists. split; [reflexivity|]. apply R.
    + now right.
    + intro d'. split; [intro K; injection K as <-; exists t; auto|]. intros (t' & K & K2 & _). apply Bu in K. congruence.
    + intro t'. split; [discriminate|]. intros (K & _). discriminate.
    + intro K. contradiction.
    + reflexivity.
Qed.
End Proper.

(** Every entry becomes one exchange, in order, and nothing is raised. *)
Theorem C68_har_exchanges : forall (H : har_env) (files : list json) (contents : list (str * list (sent * received))),
  Forall2 (fun j c => gives_file j (fst c) (snd c)) files contents ->
  (forall c x, In c contents -> In x (snd c) -> h_urlparse H (s_url (fst x)) <> None) ->
  exists exchanges, har_input H (map Some files) = (List.concat exchanges, HarDone) /\
    Forall2 (fun c es => Forall2 (expected_exchange H (fst c)) (snd c) es) contents exchanges.
Proof.
  intros H files contents F. induction F as [|j [creator xs] files contents G F IH]; intro U; [exists []; split; [reflexivity|constructor]|].
  destruct IH as (es & E & X); [intros c x I; apply U; now right|]. cbn [fst snd] in G. destruct G as (log & c & l & Gl & Gc & Gn & Ge & Gx).
  assert (K : exists es1, process_entries H (JStr creator) l = (es1, HarDone) /\ Forall2 (expected_exchange H creator) xs es1).
  { assert (U' : forall x, In x xs -> h_urlparse H (s_url (fst x)) <> None) by (intros x I; exact (U _ x (or_introl eq_refl) I)). clear - Gx U'.
    induction Gx as [|j x l xs G Gx IH]; [exists []; split; [reflexivity|constructor]|]. destruct IH as (es & E & X); [intros y I; apply U'; now right|].
    destruct G as (q & p & Hq & Gq & Hp & Gp). destruct (request_ok creator Gq (U' x (or_introl eq_refl))) as (r & Er & Xr).
    cbn [process_entries]. unfold process_entry. rewrite (proj2 (item_iff _ _ _) Hq). cbn [andThen]. rewrite Er. cbn [andThen]. rewrite (proj2 (item_iff _ _ _) Hp). cbn [andThen].
    assert (Em : hq_method r = s_method (fst x)) by (destruct Xr as (? & ? & ? & ? & _ & _ & K & _); exact K).
    destruct (@response_ok H p creator (hq_method r) (snd x) Gp) as [R1 R2]. rewrite Em in *. destruct (Z.eq_dec (r_status (snd x)) 0) as [Z0|Z0].
    - rewrite (R1 Z0). cbn [andThen]. rewrite E. eexists. split; [reflexivity|]. constructor; [|exact X]. split; [exact Xr|]. split; [reflexivity|]. intro; contradiction.
    - destruct (R2 Z0) as (rp & Erp & Xp). rewrite Erp. cbn [andThen]. rewrite E. eexists. split; [reflexivity|]. constructor; [|exact X]. split; [exact Xr|]. split; [intro; contradiction|]. intros _. exists rp. split; [reflexivity|exact Xp]. }
  destruct K as (es1 & E1 & X1). exists (es1 :: es). split; [|constructor; assumption]. cbn [map har_input]. unfold har_file.
  rewrite (proj2 (item_iff _ _ _) Gl). cbn [andThen]. rewrite (proj2 (item_iff _ _ _) Gc). cbn [andThen]. rewrite (proj2 (item_iff _ _ _) Gn). cbn [andThen]. rewrite (proj2 (item_iff _ _ _) Ge). cbn [andThen iterate].
  rewrite E1, E. reflexivity.
Qed.
Print Assumptions C68_har_exchanges.

(** * C69: errors *)

Lemma then_ok A B (m : res A) (f : A -> res B) y : andThen m f = Ok y -> exists x, m = Ok x /\ f x = Ok y.
Proof. destruct m; [eauto|discriminate]. Qed.
Lemma then_err A B (m : res A) (f : A -> res B) e : andThen m f = Err e -> m = Err e \/ exists x, m = Ok x /\ f x = Err e.
Proof. destruct m; cbn [andThen]; [eauto|intro K; left; congruence]. Qed.
Lemma each_err A B (f : A -> res B) l e : each_ok f l = Err e -> exists x, In x l /\ f x = Err e.
Proof.
  induction l as [|x l IH]; [discriminate|]. cbn [each_ok]. intro K. apply then_err in K. destruct K as [K|(y & _ & K)]; [exists x; split; [now left|exact K]|].
  apply then_err in K. destruct K as [K|(z & _ & K)]; [|discriminate]. destruct (IH K) as (w & I & E). exists w. split; [now right|exact E].
Qed.
Lemma each_In A B (f : A -> res B) l ys y : each_ok f l = Ok ys -> In y ys -> exists x, In x l /\ f x = Ok y.
Proof.
  revert ys. induction l as [|x l IH]; intro ys; cbn [each_ok]; intros K I; [injection K as <-; destruct I|].
  apply then_ok in K. destruct K as (y0 & E0 & K). apply then_ok in K. destruct K as (ys0 & E1 & K). injection K as <-.
  destruct I as [<-|I]; [exists x; split; [now left|exact E0]|]. destruct (IH _ E1 I) as (w & Iw & Ew). exists w. split; [now right|exact Ew].
Qed.

(** The members of a message, a request, a response that must be of the right
    type for an error to be an [InputError] -- where they are there at all. *)
Definition message_typed (j : json) : Prop :=
  (forall v, has j "httpVersion" v -> exists t, v = JStr t) /\
  (forall l d v, has j "headers" (JList l) -> In d l -> has d "value" v -> exists t, v = JStr t).
Definition request_typed (H : har_env) (j : json) : Prop :=
  message_typed j /\
  (forall u, has j "url" u -> exists t, u = JStr t /\ h_urlparse H t <> None) /\
  (forall p, has j "postData" p -> p = JNull \/ exists l, p = JObj l).
Definition response_typed (H : har_env) (j : json) : Prop :=
  message_typed j /\
  (forall x, has j "status" x -> exists z, x = JInt z) /\
  (forall c, has j "content" c -> exists l, c = JObj l) /\
  (forall c e, has j "content" c -> has c "encoding" e -> exists t, e = JStr t).
Definition file_typed (H : har_env) (j : json) : Prop :=
  forall log l e, has j "log" log -> has log "entries" (JList l) -> In e l ->
    (forall q, has e "request" q -> request_typed H q) /\ (forall p, has e "response" p -> response_typed H p).

Definition input_error (e : exn) : Prop := e = TypeError \/ e = KeyError.
Lemma item_err j k e : item j k = Err e -> input_error e.
Proof. unfold item, input_error. destruct j as [| | | | | |l]; try (intro K; left; congruence). destruct (lookup l (s k)); [discriminate|intro K; right; congruence]. Qed.
Lemma iterate_err j e : iterate j = Err e -> input_error e.
Proof. unfold input_error. destruct j; cbn [iterate]; try discriminate; intro K; left; congruence. Qed.
Lemma above_err j e : above_zero j = Err e -> input_error e.
Proof. unfold input_error. destruct j as [| | |[]| | |]; cbn [above_zero]; try discriminate; intro K; left; congruence. Qed.
Lemma contains_err t j e : contains_text t j = Err e -> input_error e.
Proof. unfold input_error. destruct j; cbn [contains_text]; try discriminate; intro K; left; congruence. Qed.

Section Errors.
Variable H : har_env.
Lemma iterate_value j l d v : iterate j = Ok l -> In d l -> has d "value" v -> j = JList l.
Proof.
  destruct j as [| | | |t|l'|o]; cbn [iterate]; try discriminate; intros K I (m & D & _); injection K as <-.
  - apply in_map_iff in I. destruct I as (c & E & _). congruence.
  - reflexivity.
  - apply in_map_iff in I. destruct I as (c & E & _). congruence.
Qed.
Lemma message_entries j creator v entries : process_message H j creator = Ok (v, entries) ->
  exists hs l, has j "headers" hs /\ iterate hs = Ok l /\
    (forall n w, In (n, w) entries -> pseudo_free n = true /\ exists d n', In d l /\ hs = JList l /\ has d "name" n' /\ n = text_of H n' /\ has d "value" w) /\
    exists t, has j "httpVersion" (JStr t) /\ v = (if starts_with t (s "HTTP/") && negb (is_one_of creator (CHROME ++ FIREFOX ++ EDGE)) then Some t else None).
Proof.
  unfold process_message. intro K. apply then_ok in K. destruct K as (hs & E1 & K). apply then_ok in K. destruct K as (l & E2 & K). apply then_ok in K. destruct K as (es & E3 & K). cbv zeta in K.
  apply then_ok in K. destruct K as (w & E4 & K). destruct w as [| | | |t| |]; try discriminate. injection K as <- <-. exists hs, l. split; [now apply item_iff|]. split; [exact E2|]. split.
  - intros n w I. unfold pop_pseudo_headers in I. rewrite fst_pop in I. apply filter_In in I. destruct I as [I P]. split; [exact P|]. destruct (each_In E3 I) as (d & Id & Ed). apply then_ok in Ed. destruct Ed as (n' & En & Ed). apply then_ok in Ed. destruct Ed as (w' & Ew & Ed).
    injection Ed as <- <-. apply item_iff in En, Ew. exists d, n'. split; [exact Id|]. split; [exact (iterate_value E2 Id Ew)|]. auto.
  - exists t. split; [now apply item_iff|reflexivity].
Qed.
Lemma message_err j creator e : message_typed j -> process_message H j creator = Err e -> input_error e.
Proof.
  intros [T1 T2] K. unfold process_message in K. apply then_err in K. destruct K as [K|(hs & E1 & K)]; [now apply item_err in K|].
  apply then_err in K. destruct K as [K|(l & E2 & K)]; [now apply iterate_err in K|]. apply then_err in K. destruct K as [K|(es & E3 & K)].
  - apply each_err in K. destruct K as (d & I & K). apply then_err in K. destruct K as [K|(n & _ & K)]; [now apply item_err in K|]. apply then_err in K. destruct K as [K|(w & _ & K)]; [now apply item_err in K|discriminate].
  - cbv zeta in K. apply then_err in K. destruct K as [K|(w & E4 & K)]; [now apply item_err in K|]. apply item_iff in E4. destruct (T1 _ E4) as (t & ->). discriminate.
Qed.
Lemma entries_err j creator v entries entries' e : message_typed j -> process_message H j creator = Ok (v, entries) -> incl entries' entries ->
  each_ok header_entry entries' = Err e -> False.
Proof.
  intros [_ T2] M S K. apply each_err in K. destruct K as ([n w] & I & K). destruct (message_entries M) as (hs & l & E1 & _ & E3 & _). destruct (E3 _ _ (S _ I)) as (_ & d & n' & Id & -> & _ & _ & Ew).
  destruct (T2 _ _ _ E1 Id Ew) as (t & ->). discriminate.
Qed.

Lemma request_err j creator e : request_typed H j -> process_request H j creator = Err e -> input_error e.
Proof.
  intros (T & Tu & Tp) K. unfold process_request in K. apply then_err in K. destruct K as [K|([v entries] & M & K)]; [exact (message_err T K)|].
  apply then_err in K. destruct K as [K|(method & _ & K)]; [now apply item_err in K|]. apply then_err in K. destruct K as [K|(u & Eu & K)]; [now apply item_err in K|].
  apply item_iff in Eu. destruct (Tu _ Eu) as (t & -> & Ut). cbn [parse_url] in K. destruct (h_urlparse H t) as [[[[scheme netloc] path] query]|]; [|congruence]. cbn [andThen] in K.
  apply then_err in K. destruct K as [K|(z & _ & K)]; [now apply item_err in K|]. apply then_err in K. destruct K as [K|(b & _ & K)].
  { destruct (is_zero z); [discriminate|]. apply then_err in K. destruct K as [K|(b & _ & K)]; [now apply above_err in K|discriminate]. }
  apply then_err in K. destruct K as [K|(post & Ep & K)].
  { exfalso. destruct Eu as (o & -> & _). discriminate. }
  apply then_err in K. destruct K as [K|(text & _ & K)].
  { exfalso. destruct post as [p|]; [|discriminate]. destruct (is_true p) eqn:P; [|discriminate]. apply get_iff in Ep. destruct (Tp _ Ep) as [->|(o & ->)]; [discriminate|]. cbn [get_item andThen] in K. discriminate. }
  apply then_err in K. destruct K as [K|(d & _ & K)].
  { destruct text as [t'|]; [|discriminate]. destruct (is_one_of creator FIDDLER && is_text method "CONNECT"); [now apply contains_err in K|discriminate]. }
  apply then_err in K. destruct K as [K|(hs & _ & K)]; [|discriminate]. exfalso. exact (entries_err T M (incl_refl _) K).
Qed.

Lemma response_err j method creator e : response_typed H j -> process_response H j method creator = Err e -> input_error e.
Proof.
  intros (T & Ts & Tc & Te) K. unfold process_response in K. apply then_err in K. destruct K as [K|(raw & Er & K)]; [now apply item_err in K|].
  destruct (is_zero raw); [discriminate|]. apply then_err in K. destruct K as [K|([v entries] & M & K)]; [exact (message_err T K)|].
  apply item_iff in Er. destruct (Ts _ Er) as (z & ->). cbn [to_int andThen] in K. apply then_err in K. destruct K as [K|(reason & _ & K)]; [now apply item_err in K|]. cbv zeta in K.
  apply then_err in K. destruct K as [K|(size & _ & K)]; [now apply item_err in K|]. apply then_err in K. destruct K as [K|(none & _ & K)].
  { destruct (is_zero size); [discriminate|]. apply then_err in K. destruct K as [K|(c & _ & K)]; [now apply item_err in K|]. apply then_err in K. destruct K as [K|(w & _ & K)]; [now apply item_err in K|discriminate]. }
  apply then_err in K. destruct K as [K|(body & _ & K)].
  { destruct none; [discriminate|]. destruct (is_one_of creator FIREFOX); [discriminate|]. apply then_err in K. destruct K as [K|(b & _ & K)]; [now apply above_err in K|]. destruct b; [discriminate|].
    apply then_err in K. destruct K as [K|(c & _ & K)]; [now apply item_err in K|]. apply then_err in K. destruct K as [K|(w & _ & K)]; [now apply item_err in K|].
    apply then_err in K. destruct K as [K|(b & _ & K)]; [now apply above_err in K|discriminate]. }
  apply then_err in K. destruct K as [K|(hs & _ & K)].
  { exfalso. refine (entries_err T M _ K). destruct (_ && _ && _); [|apply incl_refl]. intros x I. apply filter_In in I. apply I. }
  apply then_err in K. destruct K as [K|(c & Ec & K)]; [now apply item_err in K|]. apply item_iff in Ec. destruct (Tc _ Ec) as (o & ->). cbn [get_item andThen] in K.
  destruct (lookup o (s "text")) as [t|] eqn:Lt; [|discriminate]. destruct (is_true t && negb (z =? 304)%Z); [|discriminate].
  destruct (lookup o (s "encoding")) as [en|] eqn:Le; [|discriminate]. destruct (Te _ en Ec (ex_intro _ o (conj eq_refl Le))) as (e' & ->). destruct (str_eqb (lower e') (s "base64")); [|discriminate].
  unfold input_error. destruct t as [| | | |t| |]; try (left; congruence). destruct (h_base64 H t) as [d|]; [|discriminate]. destruct (_ && occurs_in _ _); discriminate.
Qed.

Lemma ends_input e : input_error e -> har_ends e = HarInputError.
Proof. intros [->| ->]; reflexivity. Qed.
End Errors.

(** Whatever else is wrong with it, a file whose members have these types ends
    well or with [InputError]. *)
Theorem C69_har_errors : forall (H : har_env) (files : list (option json)),
  (forall j, In (Some j) files -> file_typed H j) ->
  snd (har_input H files) = HarDone \/ snd (har_input H files) = HarInputError.
Proof.
  intros H files. induction files as [|[j|] files IH]; intro T; [now left| |now right]. cbn [har_input].
  assert (F : snd (har_file H j) = HarDone \/ snd (har_file H j) = HarInputError).
  { assert (Tj := T j (or_introl eq_refl)). clear - Tj. unfold har_file. destruct (andThen (item j "log") _) as [[creator l]|e] eqn:K.
    2:{ right. apply ends_input. apply then_err in K. destruct K as [K|(log & _ & K)]; [now apply item_err in K|]. apply then_err in K. destruct K as [K|(c & _ & K)]; [now apply item_err in K|].
        apply then_err in K. destruct K as [K|(n & _ & K)]; [now apply item_err in K|]. apply then_err in K. destruct K as [K|(log2 & _ & K)]; [now apply item_err in K|].
        apply then_err in K. destruct K as [K|(es & _ & K)]; [now apply item_err in K|]. apply then_err in K. destruct K as [K|(l & _ & K)]; [now apply iterate_err in K|discriminate]. }
    apply then_ok in K. destruct K as (log & El & K). apply then_ok in K. destruct K as (c & Ec & K). apply then_ok in K. destruct K as (n & En & K). rewrite El in K. cbn [andThen] in K.
    apply then_ok in K. destruct K as (es & Ee & K). apply then_ok in K. destruct K as (l' & Ei & K). injection K as -> ->. apply item_iff in El, Ee.
    assert (L : forall e, In e l -> (forall q, has e "request" q -> request_typed H q) /\ (forall p, has e "response" p -> response_typed H p)).
    { intros e I. destruct e as [| | | | | |o]; try (split; intros ? (o & K & _); discriminate). assert (es = JList l) as ->.
      { destruct es; cbn [iterate] in Ei; try discriminate; injection Ei as <-; [apply in_map_iff in I; destruct I as (? & K & _); discriminate|reflexivity|apply in_map_iff in I; destruct I as (? & K & _); discriminate]. }
      exact (Tj log l _ El Ee I). }
    clear - L. induction l as [|e l IH]; [now left|]. cbn [process_entries]. destruct (process_entry H creator e) as [x|err] eqn:K.
    - destruct (process_entries H creator l) as [es h]. apply IH. intros e' I. apply L. now right.
    - right. cbn [snd]. apply ends_input. destruct (L e (or_introl eq_refl)) as [Tq Tp]. unfold process_entry in K. apply then_err in K. destruct K as [K|(q & Eq & K)]; [now apply item_err in K|]. apply item_iff in Eq.
      apply then_err in K. destruct K as [K|(r & _ & K)]; [exact (request_err (Tq _ Eq) K)|]. apply then_err in K. destruct K as [K|(p & Ep & K)]; [now apply item_err in K|]. apply item_iff in Ep.
      apply then_err in K. destruct K as [K|(rp & _ & K)]; [exact (response_err (Tp _ Ep) K)|discriminate]. }
  destruct (har_file H j) as [es h]. cbn [snd] in F. destruct h; [|now right|destruct F; discriminate]. destruct (har_input H files) as [es' h']. apply IH. intros j' I. apply T. now right.
Qed.
Print Assumptions C69_har_errors.

(** In general it is not so: a version that is a number, in any file. *)
Definition har_of (creator : json) (entries : list json) : json :=
  JObj [(s "log", JObj [(s "creator", JObj [(s "name", creator)]); (s "entries", JList entries)])].
Theorem C69_har_errors_refuted : forall H, exists j, har_input H [Some j] = ([], HarRaises AttributeError).
Proof.
  intro H. exists (har_of (JStr (s "x")) [JObj [(s "request", JObj [(s "headers", JList []); (s "httpVersion", JInt 1)])]]). reflexivity.
Qed.
Print Assumptions C69_har_errors_refuted.

(** What comes first is not changed by what comes after it, and what comes
    after is not changed by what comes before: neither files ... *)
Definition in_turn (a b : list har_exchange * har_ending) : list har_exchange * har_ending :=
  match a with (es, HarDone) => (es ++ fst b, snd b) | _ => a end.
Theorem C69_har_files : forall (H : har_env) (files1 files2 : list (option json)),
  har_input H (files1 ++ files2) = in_turn (har_input H files1) (har_input H files2).
Proof.
  intros H files1 files2. induction files1 as [|[j|] files1 IH]; cbn [app har_input]; [cbn [in_turn app]; now destruct (har_input H files2)| |reflexivity].
  destruct (har_file H j) as [es h]. destruct h; [|reflexivity|reflexivity]. rewrite IH. destruct (har_input H files1) as [es1 h1]. destruct h1; cbn [in_turn]; rewrite ?app_assoc; reflexivity.
Qed.
Print Assumptions C69_har_files.
(** A file that is not JSON ends it. *)
Theorem C69_har_not_json : forall (H : har_env) (files1 files2 : list (option json)), snd (har_input H files1) = HarDone ->
  har_input H (files1 ++ None :: files2) = (fst (har_input H files1), HarInputError).
Proof. intros H files1 files2 D. rewrite C69_har_files. destruct (har_input H files1) as [es h]. cbn [snd] in D. subst h. cbn [in_turn har_input fst snd]. now rewrite app_nil_r. Qed.
Print Assumptions C69_har_not_json.
(** ... nor entries of a file.  In particular the exchanges are those of the
    entries before the first one that cannot be understood. *)
Definition entries_are (j creator : json) (l : list json) : Prop :=
  exists log c, has j "log" log /\ has log "creator" c /\ has c "name" creator /\ has log "entries" (JList l).
Lemma entries_file H j creator l : entries_are j creator l -> har_input H [Some j] = process_entries H creator l.
Proof.
  intros (log & c & A & B & C & D). cbn [har_input]. unfold har_file. rewrite (proj2 (item_iff _ _ _) A). cbn [andThen]. rewrite (proj2 (item_iff _ _ _) B). cbn [andThen]. rewrite (proj2 (item_iff _ _ _) C). cbn [andThen].
  rewrite (proj2 (item_iff _ _ _) D). cbn [andThen iterate]. destruct (process_entries H creator l) as [es []]; rewrite ?app_nil_r; reflexivity.
Qed.
Theorem C69_har_entries : forall (H : har_env) (j j1 j2 creator : json) (l1 l2 : list json),
  entries_are j creator (l1 ++ l2) -> entries_are j1 creator l1 -> entries_are j2 creator l2 ->
  har_input H [Some j] = in_turn (har_input H [Some j1]) (har_input H [Some j2]).
Proof.
  intros H j j1 j2 creator l1 l2 E E1 E2. rewrite (entries_file H E), (entries_file H E1), (entries_file H E2). clear. induction l1 as [|x l1 IH]; cbn [app process_entries]; [cbn [in_turn app]; now destruct (process_entries H creator l2)|].
  destruct (process_entry H creator x) as [e|e]; [|destruct e; reflexivity]. rewrite IH. destruct (process_entries H creator l1) as [es1 h1]. destruct h1; reflexivity.
Qed.
Print Assumptions C69_har_entries.
(** One entry makes one exchange with at most one response, or none. *)
Theorem C69_har_entry : forall (H : har_env) (j creator e : json), entries_are j creator [e] ->
  (exists x, har_input H [Some j] = ([x], HarDone) /\ List.length (snd x) <= 1) \/
  (exists h, har_input H [Some j] = ([], h) /\ h <> HarDone).
Proof.
  intros H j creator e E. rewrite (entries_file H E). cbn [process_entries]. destruct (process_entry H creator e) as [x|err] eqn:K.
  - left. exists x. split; [reflexivity|]. unfold process_entry in K. apply then_ok in K. destruct K as (q & _ & K). apply then_ok in K. destruct K as (r & _ & K). apply then_ok in K. destruct K as (p & _ & K).
    apply then_ok in K. destruct K as (rp & _ & K). injection K as <-. destruct rp; cbn [snd List.length]; lia.
  - right. eexists. split; [reflexivity|]. destruct err; discriminate.
Qed.
Print Assumptions C69_har_entry.

(** * C70: nothing is made up *)

(** Equal to 0 in Python; greater than it. *)
Definition zero (x : json) : Prop := x = JInt 0 \/ x = JBool false \/ exists d, x = JReal (Finite 0 d).
Definition positive (x : json) : Prop :=
  (exists z, x = JInt z /\ (0 < z)%Z) \/ x = JBool true \/ (exists n d, x = JReal (Finite n d) /\ (0 < n)%Z) \/ x = JReal (Infinite true).
Lemma zero_iff x : is_zero x = true <-> zero x.
Proof.
  unfold zero. destruct x as [|b|z|[n d|p|]|t|l|l]; cbn [is_zero].
  all: try (split; [discriminate|intros [K|[K|(? & K)]]; discriminate]).
  - destruct b; cbn [negb]; (split; [try discriminate; auto|intros [K|[K|(? & K)]]; congruence]).
  - rewrite Z.eqb_eq. split; [intros ->; auto|intros [K|[K|(? & K)]]; congruence].
  - rewrite Z.eqb_eq. split; [intros ->; eauto|intros [K|[K|(? & K)]]; congruence].
Qed.
Lemma positive_iff x : above_zero x = Ok true -> positive x.
Proof.
  unfold positive. destruct x as [|b|z|[n d|p|]|t|l|l]; cbn [above_zero]; try discriminate; intro K; injection K as K.
  - subst b. auto.
  - left. exists z. split; [reflexivity|lia].
  - right; right; left. exists n, d. split; [reflexivity|lia].
  - subst p. auto.
Qed.

(** The text of a JSON value, as Python's [str] has it. *)
Definition is_str (H : har_env) (x : json) (t : str) : Prop := x = JStr t \/ (forall y, x <> JStr y) /\ t = h_str H x.
Lemma text_is H x : is_str H x (text_of H x).
Proof. unfold is_str. destruct x; cbn [text_of]; auto; right; (split; [discriminate|reflexivity]). Qed.

Definition stated_version (j creator : json) (v : option str) : Prop :=
  forall t, v = Some t -> has j "httpVersion" (JStr t) /\ (exists y, t = s "HTTP/" ++ y) /\ forall c, creator = JStr c -> ~ browser c.
(** Every header is one of those given, and is not a pseudo-header. *)
Definition stated_headers (H : har_env) (j : json) (l : list (str * str)) : Prop :=
  forall n v, In (n, v) l -> (forall y, n <> s ":" ++ y) /\
    exists hs d n' v', has j "headers" (JList hs) /\ In d hs /\ has d "name" n' /\ is_str H n' n /\ has d "value" (JStr v') /\ v = to_latin1 v'.
Definition stated_request (H : har_env) (creator j : json) (r : har_request) : Prop :=
  (exists m, has j "method" m /\ is_str H m (hq_method r)) /\
  stated_version j creator (hq_version r) /\ stated_headers H j (hq_headers r) /\
  (forall b, hq_body r = Avail b -> b = [] /\
     ((exists z, has j "bodySize" z /\ zero z) \/ creator = JStr (s "Fiddler") /\ has j "method" (JStr (s "CONNECT")))) /\
  (forall b, hq_body r = Unavail b -> b = None /\ exists z, has j "bodySize" z /\ positive z) /\
  (forall t, hq_text r = Some t -> exists p, has j "postData" p /\ has p "text" t).
Definition stated_response (H : har_env) (creator j : json) (method : str) (r : har_response) : Prop :=
  (forall z, has j "status" (JInt z) -> hp_status r = z) /\
  (forall t, hp_reason r = Some t -> exists x, has j "statusText" x /\ is_str H x t) /\
  stated_version j creator (hp_version r) /\ stated_headers H j (hp_headers r) /\
  (forall b, hp_body r = Avail b -> b = [] /\
     ((exists z, has j "bodySize" z /\ zero z) \/ (exists c z, has j "content" c /\ has c "size" z /\ zero z) \/ hp_status r = 304%Z \/
      creator = JStr (s "Fiddler") /\ method = s "CONNECT" /\ (200 <= hp_status r <= 299)%Z)) /\
  (forall b, hp_body r = Unavail b -> b = None /\ creator <> JStr (s "Firefox") /\
     ((exists z, has j "bodySize" z /\ positive z) \/ exists c z, has j "content" c /\ has c "size" z /\ positive z)) /\
  (forall d, hp_decoded r = Some d -> hp_status r <> 304%Z /\
     exists c e t, has j "content" c /\ has c "encoding" (JStr e) /\ lower e = s "base64" /\ has c "text" (JStr t) /\ h_base64 H t = Some d) /\
  (forall t, hp_text r = Some t -> hp_status r <> 304%Z /\ exists c, has j "content" c /\ lacks c "encoding" /\ has c "text" t).
Definition stated (H : har_env) (creator e : json) (x : har_exchange) : Prop :=
  exists q p status, has e "request" q /\ stated_request H creator q (fst x) /\ has e "response" p /\ has p "status" status /\
    (snd x = [] <-> zero status) /\ forall r, In r (snd x) -> stated_response H creator p (hq_method (fst x)) r.

Section Stated.
Variable H : har_env.
Lemma message_version j creator v entries : process_message H j creator = Ok (v, entries) -> stated_version j creator v.
Proof.
  intros M t ->. destruct (message_entries M) as (hs & l & _ & _ & _ & t' & E & K). destruct (starts_with t' (s "HTTP/")) eqn:S; [|discriminate]. cbn [andb] in K.
  destruct (is_one_of creator (CHROME ++ FIREFOX ++ EDGE)) eqn:B; [discriminate|]. injection K as ->. split; [exact E|]. split; [now apply starts_iff|].
  intros c -> K. apply not_true_iff_false in B. apply B. unfold is_one_of. apply existsb_exists. destruct K as [<-|[<-|[<-|[]]]]; [exists "WebInspector"|exists "Firefox"|exists "F12 Developer Tools"]; (split; [cbn [CHROME FIREFOX EDGE app In]; auto|reflexivity]).
Qed.
Lemma message_headers j creator v entries entries' hs : process_message H j creator = Ok (v, entries) -> incl entries' entries ->
  each_ok header_entry entries' = Ok hs -> stated_headers H j hs.
Proof.
  intros M S K n w I. destruct (each_In K I) as ([n' w'] & I' & E). destruct w' as [| | | |w'| |]; try discriminate. cbn [header_entry snd fst] in E. injection E as <- <-.
  destruct (message_entries M) as (j' & l & E1 & _ & E3 & _). destruct (E3 _ _ (S _ I')) as (P & d & n2 & Id & -> & En & -> & Ew). split.
  - intros y E. assert (X : starts_with (text_of H n2) (s ":") = true) by (apply starts_iff; eauto). rewrite pseudo_starts, P in X. discriminate.
  - exists l, d, n2, w'. split; [exact E1|]. split; [exact Id|]. split; [exact En|]. split; [apply text_is|]. auto.
Qed.
Lemma creator_is creator t : is_one_of creator [t] = true <-> creator = JStr (s t).
Proof. cbn [is_one_of existsb]. rewrite orb_false_r. destruct creator; cbn [is_text]; try (split; discriminate). rewrite str_eqb_eq. split; [now intros ->|congruence]. Qed.

Lemma request_stated j creator r : process_request H j creator = Ok r -> stated_request H creator j r.
Proof.
  intro K. unfold process_request in K. apply then_ok in K. destruct K as ([v entries] & M & K). apply then_ok in K. destruct K as (m & Em & K). apply then_ok in K. destruct K as (u & _ & K).
  apply then_ok in K. destruct K as ([[[scheme netloc] path] query] & _ & K). apply then_ok in K. destruct K as (z & Ez & K). apply then_ok in K. destruct K as (body & Eb & K).
  apply then_ok in K. destruct K as (post & Ep & K). apply then_ok in K. destruct K as (text & Et & K). apply then_ok in K. destruct K as (drop & Ed & K). apply then_ok in K. destruct K as (hs & Eh & K). injection K as <-.
  unfold stated_request. cbn [hq_method hq_version hq_headers hq_body hq_text]. apply item_iff in Em, Ez.
  split; [exists m; split; [exact Em|apply text_is]|]. split; [exact (message_version M)|]. split; [exact (message_headers M (incl_refl _) Eh)|].
  assert (D : drop = true -> creator = JStr (s "Fiddler") /\ has j "method" (JStr (s "CONNECT"))).
  { intros ->. destruct text as [t|]; [|discriminate]. destruct (is_one_of creator FIDDLER) eqn:F; [|discriminate]. destruct (is_text m "CONNECT") eqn:C; [|discriminate]. split; [now apply creator_is|].
    assert (m = JStr (s "CONNECT")) as <- by (destruct m; try discriminate; cbn [is_text] in C; apply str_eqb_eq in C; now subst). exact Em. }
  split; [|split].
  - intros b Hb. destruct drop; [injection Hb as <-; split; [reflexivity|]; right; now apply D|]. subst body. destruct (is_zero z) eqn:Z0; [injection Eb as <-; split; [reflexivity|]; left; exists z; split; [exact Ez|now apply zero_iff]|].
    apply then_ok in Eb. destruct Eb as (big & _ & Eb). destruct big; discriminate.
  - intros b Hb. destruct drop; [discriminate|]. subst body. destruct (is_zero z); [discriminate|]. apply then_ok in Eb. destruct Eb as (big & A & Eb). destruct big; [|discriminate]. injection Eb as <-. split; [reflexivity|]. exists z. split; [exact Ez|now apply positive_iff].
  - intros t Ht. destruct drop; [discriminate|]. subst text. destruct post as [p|]; [|discriminate]. exists p. apply get_iff in Ep. split; [exact Ep|]. destruct (is_true p); [|discriminate].
    apply then_ok in Et. destruct Et as (o & Eo & Et). destruct o as [t'|]; [|discriminate]. destruct (is_true t'); [|discriminate]. injection Et as <-. now apply get_iff in Eo.
Qed.

Lemma response_stated j method creator r : process_response H j method creator = Ok r ->
  exists status, has j "status" status /\ (r = None <-> zero status) /\ forall r', r = Some r' -> stated_response H creator j method r'.
Proof.
  intro K. unfold process_response in K. apply then_ok in K. destruct K as (raw & Er & K). apply item_iff in Er. exists raw. split; [exact Er|]. rewrite <- zero_iff.
  destruct (is_zero raw) eqn:Z0; [injection K as <-; split; [tauto|discriminate]|].
  apply then_ok in K. destruct K as ([v entries] & M & K). apply then_ok in K. destruct K as (status & Es & K). apply then_ok in K. destruct K as (reason & Ere & K). cbv zeta in K.
  set (tunnel := is_one_of creator FIDDLER && str_eqb method (s "CONNECT") && ((200 <=? status) && (status <=? 299))%Z) in *.
  assert (T : tunnel = true -> creator = JStr (s "Fiddler") /\ method = s "CONNECT" /\ (200 <= status <= 299)%Z).
  { unfold tunnel. rewrite !andb_true_iff, str_eqb_eq, !Z.leb_le. unfold FIDDLER. rewrite creator_is. tauto. }
  clearbody tunnel.
  apply then_ok in K. destruct K as (size & Esz & K). apply then_ok in K. destruct K as (none & En & K). apply then_ok in K. destruct K as (body & Eb & K). apply then_ok in K. destruct K as (hs & Eh & K).
  apply then_ok in K. destruct K as (c & Ec & K). apply then_ok in K. destruct K as (text & Et & K). apply item_iff in Ere, Esz, Ec.
  assert (S : incl (if tunnel then filter (fun e : str * json => negb (existsb (fun n => ci_eq (fst e) (s n)) ["EndTime"; "ClientToServerBytes"; "ServerToClientBytes"])) entries else entries) entries).
  { destruct tunnel; [|apply incl_refl]. intros x I. apply filter_In in I. apply I. }
  assert (Hh := message_headers M S Eh). assert (Hv := message_version M).
  assert (B1 : forall b, body = Avail b -> b = [] /\ ((exists z, has j "bodySize" z /\ zero z) \/ (exists c z, has j "content" c /\ has c "size" z /\ zero z) \/ status = 304%Z)).
  { intros b ->. destruct none.
    - injection Eb as <-. split; [reflexivity|]. destruct (is_zero size) eqn:Zs; [left; exists size; split; [exact Esz|now apply zero_iff]|]. right.
      apply then_ok in En. destruct En as (c' & Ec' & En). apply then_ok in En. destruct En as (z & Ez & En). injection En as En. apply orb_true_iff in En. destruct En as [En|En]; [left|right; lia].
      apply item_iff in Ec', Ez. exists c', z. split; [exact Ec'|]. split; [exact Ez|now apply zero_iff].
    - destruct (is_one_of creator FIREFOX); [discriminate|]. apply then_ok in Eb. destruct Eb as (big & _ & Eb). destruct big; [discriminate|]. apply then_ok in Eb. destruct Eb as (c' & _ & Eb). apply then_ok in Eb. destruct Eb as (z & _ & Eb).
      apply then_ok in Eb. destruct Eb as (big & _ & Eb). destruct big; discriminate. }
  assert (B2 : forall b, body = Unavail b -> b = None /\ creator <> JStr (s "Firefox") /\ ((exists z, has j "bodySize" z /\ positive z) \/ exists c z, has j "content" c /\ has c "size" z /\ positive z)).
  { intros b ->. destruct none; [discriminate|]. destruct (is_one_of creator FIREFOX) eqn:F; [discriminate|]. unfold FIREFOX in F. apply not_true_iff_false in F. rewrite creator_is in F.
    apply then_ok in Eb. destruct Eb as (big & A & Eb). destruct big; [injection Eb as <-; split; [reflexivity|]; split; [exact F|]; left; exists size; split; [exact Esz|now apply positive_iff]|].
    apply then_ok in Eb. destruct Eb as (c' & Ec' & Eb). apply then_ok in Eb. destruct Eb as (z & Ez & Eb). apply then_ok in Eb. destruct Eb as (big & A2 & Eb). destruct big; [|discriminate]. injection Eb as <-.
    split; [reflexivity|]. split; [exact F|]. right. apply item_iff in Ec', Ez. exists c', z. split; [exact Ec'|]. split; [exact Ez|now apply positive_iff]. }
  set (resp := HarResponse v status (match reason with JNull => None | _ => Some (text_of H reason) end) hs) in *.
  assert (R : forall b d u, (b = body \/ b = Avail [] /\ tunnel = true) ->
    (forall d', d = Some d' -> status <> 304%Z /\ exists c e t, has j "content" c /\ has c "encoding" (JStr e) /\ lower e = s "base64" /\ has c "text" (JStr t) /\ h_base64 H t = Some d') ->
    (forall t, u = Some t -> status <> 304%Z /\ exists c, has j "content" c /\ lacks c "encoding" /\ has c "text" t) -> stated_response H creator j method (resp b d u)).
  { intros b d u Hb Hd Hu. unfold stated_response, resp. cbn [hp_status hp_reason hp_version hp_headers hp_body hp_decoded hp_text].
    split. { intros z Hz. destruct Er as (o & -> & L). destruct Hz as (o' & E & L'). injection E as <-. rewrite L in L'. injection L' as ->. cbn [to_int] in Es. congruence. }
    split. { intros t Ht. exists reason. split; [exact Ere|]. assert (t = text_of H reason) as -> by (destruct reason; try discriminate; cbn [text_of] in *; congruence). apply text_is. }
    split; [exact Hv|]. split; [exact Hh|]. split.
    - intros b' E. subst b. destruct Hb as [Hb|[Hb Tt]]; [destruct (B1 _ (eq_sym Hb)) as [E1 E2]; tauto|]. injection Hb as ->. split; [reflexivity|]. right; right; right. now apply T.
    - split; [|split; [exact Hd|exact Hu]]. intros b' E. subst b. destruct Hb as [Hb|[Hb _]]; [now apply B2|discriminate]. }
  assert (R0 : stated_response H creator j method (resp body None None)) by (apply R; [now left|discriminate|discriminate]).
  assert (Q : forall r0, Ok (Some r0) = Ok r -> stated_response H creator j method r0 -> (r = None <-> false = true) /\ forall r', r = Some r' -> stated_response H creator j method r').
  { intros r0 E Hr. injection E as <-. split; [split; discriminate|]. intros r' E. injection E as <-. exact Hr. }
  destruct text as [t|]; [|exact (Q _ K R0)]. apply get_iff in Et. destruct (is_true t && negb (status =? 304)%Z) eqn:Tt; [|exact (Q _ K R0)].
  assert (N3 : status <> 304%Z) by lia. apply then_ok in K. destruct K as (enc & Een & K). apply get_iff in Een. destruct enc as [en|].
  2:{ apply (Q _ K), R; [now left|discriminate|]. intros t' E. injection E as <-. split; [exact N3|]. exists c. auto. }
  destruct en as [| | | |e| |]; try discriminate. destruct (str_eqb (lower e) (s "base64")) eqn:B; [|exact (Q _ K R0)]. apply str_eqb_eq in B. destruct t as [| | | |t| |]; try discriminate.
  destruct (h_base64 H t) as [d|] eqn:B64; [|exact (Q _ K R0)]. destruct tunnel; cbn [andb] in K.
  - destruct (occurs_in (s "Fiddler") d); apply (Q _ K), R; [now right|discriminate|discriminate|now left| |discriminate]. intros d' E. injection E as <-. split; [exact N3|]. exists c, e, t. auto 6.
  - apply (Q _ K), R; [now left| |discriminate]. intros d' E. injection E as <-. split; [exact N3|]. exists c, e, t. auto 6.
Qed.
End Stated.

(** For every exchange there is an entry of a file that says all of this. *)
Theorem C70_har_says : forall (H : har_env) (files : list (option json)) (x : har_exchange),
  In x (fst (har_input H files)) ->
  exists j log c creator l e, In (Some j) files /\ has j "log" log /\ has log "creator" c /\ has c "name" creator /\
    has log "entries" (JList l) /\ In e l /\ stated H creator e x.
Proof.
  intros H files x. induction files as [|[j|] files IH]; cbn [har_input fst]; [intros []| |intros []].
  assert (F : In x (fst (har_file H j)) -> exists log c creator l e, has j "log" log /\ has log "creator" c /\ has c "name" creator /\ has log "entries" (JList l) /\ In e l /\ stated H creator e x).
  { clear. unfold har_file. destruct (andThen (item j "log") _) as [[creator l]|e] eqn:K; [|intros []].
    apply then_ok in K. destruct K as (log & El & K). apply then_ok in K. destruct K as (c & Ec & K). apply then_ok in K. destruct K as (n & En & K). rewrite El in K. cbn [andThen] in K.
    apply then_ok in K. destruct K as (es & Ee & K). apply then_ok in K. destruct K as (l' & Ei & K). injection K as -> ->. apply item_iff in El, Ec, En, Ee.
    intro I. assert (P : exists e, In e l /\ process_entry H creator e = Ok x).
    { clear - I. induction l as [|e l IH]; [destruct I|]. cbn [process_entries] in I. destruct (process_entry H creator e) as [y|err] eqn:Y; [|destruct I]. destruct (process_entries H creator l) as [es h]. cbn [fst] in I.
      destruct I as [<-|I]; [exists e; split; [now left|exact Y]|]. destruct (IH I) as (e' & I' & E'). exists e'. split; [now right|exact E']. }
    destruct P as (e & Ie & P). unfold process_entry in P. apply then_ok in P. destruct P as (q & Eq & P). apply then_ok in P. destruct P as (r & Hr & P). apply then_ok in P. destruct P as (p & Ep & P). apply then_ok in P. destruct P as (rp & Hp & P). injection P as <-.
    apply item_iff in Eq, Ep. assert (es = JList l) as ->.
    { destruct Eq as (o & -> & _). destruct es; cbn [iterate] in Ei; try discriminate; injection Ei as <-; [apply in_map_iff in Ie; destruct Ie as (? & K & _); discriminate|reflexivity|apply in_map_iff in Ie; destruct Ie as (? & K & _); discriminate]. }
    exists log, c, creator, l, e. split; [exact El|]. split; [exact Ec|]. split; [exact En|]. split; [exact Ee|]. split; [exact Ie|].
    destruct (response_stated Hp) as (status & Hs & Z & R). exists q, p, status. cbn [fst snd]. split; [exact Eq|]. split; [now apply request_stated|]. split; [exact Ep|]. split; [exact Hs|]. split.
    - rewrite <- Z. destruct rp; split; try discriminate; reflexivity.
    - intros r' I'. destruct rp as [rp|]; [|destruct I']. destruct I' as [<-|[]]. now apply R. }
  destruct (har_file H j) as [es h]. cbn [fst] in F.
  assert (G : In x es -> exists j' log c creator l e, In (Some j') (Some j :: files) /\ has j' "log" log /\ has log "creator" c /\ has c "name" creator /\ has log "entries" (JList l) /\ In e l /\ stated H creator e x).
  { intro I. destruct (F I) as (log & c & creator & l & e & K). exists j, log, c, creator, l, e. split; [now left|exact K]. }
  destruct h; cbn [fst]; [|exact G|exact G]. destruct (har_input H files) as [es' h']. cbn [fst] in *. intro I. apply in_app_or in I. destruct I as [I|I]; [exact (G I)|].
  destruct (IH I) as (j' & log & c & creator & l & e & I' & K). exists j', log, c, creator, l, e. split; [now right|exact K].
Qed.
Print Assumptions C70_har_says.

(** * An example *)

(** Two entries from a browser: a response whose body was gzipped, so that only
    what was in it is known, and a request that got no response. *)
Definition example_env : har_env := HarEnv (fun _ => s "{}") (fun _ => Some (s "http", s "example.com", s "/a", s "b=1")) (fun _ => None) (fun _ => Some (s "hello")).
Definition example_message (headers : list (string * string)) : list (str * json) :=
  [(s "httpVersion", JStr (s "HTTP/1.1"));
   (s "headers", JList (map (fun h => JObj [(s "name", JStr (s (fst h))); (s "value", JStr (s (snd h)))]) headers))].
Definition example_request : json :=
  JObj (example_message [(":method", "GET"); ("host", "example.com")] ++
        [(s "method", JStr (s "GET")); (s "url", JStr (s "http://example.com/a?b=1")); (s "bodySize", JInt 0)]).
Definition example_sent : sent := Sent (s "GET") (s "http://example.com/a?b=1") (s "HTTP/1.1") [(s ":method", s "GET"); (s "host", s "example.com")] 0 None.
Definition example_response (status : Z) (headers : list (string * string)) (size len : Z) (content : list (str * json)) : json :=
  JObj (example_message headers ++ [(s "status", JInt status); (s "statusText", JStr (s "OK")); (s "bodySize", JInt size); (s "content", JObj ((s "size", JInt len) :: content))]).
Definition example_entries : list json :=
  [JObj [(s "request", example_request); (s "response", example_response 200 [("Content-Encoding", "gzip")] 11 5 [(s "text", JStr (s "aGVsbG8=")); (s "encoding", JStr (s "Base64"))])];
   JObj [(s "request", example_request); (s "response", example_response 0 [] (-1) 0 [])]].
Definition example_received : list received :=
  [Received 200 (s "OK") (s "HTTP/1.1") [(s "Content-Encoding", s "gzip")] 11 5 (Some (s "aGVsbG8=")) (Some (s "Base64"));
   Received 0 (s "OK") (s "HTTP/1.1") [] (-1) 0 None None].

Ltac member := eexists; split; [reflexivity|reflexivity].
Lemma example_request_given : gives_request example_request example_sent.
Proof.
  split; [member|]. split; [member|]. split; [split; [member|]; eexists; split; [member|]; repeat constructor; member|]. split; [member|]. left. member.
Qed.
Example C68_example :
  gives_file (har_of (JStr (s "WebInspector")) example_entries) (s "WebInspector") (map (pair example_sent) example_received) /\
  har_input example_env [Some (har_of (JStr (s "WebInspector")) example_entries)] =
    ([(HarRequest (s "http") (s "GET") (s "/a?b=1") None [(s "host", s "example.com")] (Avail []) None,
       [HarResponse None 200 (Some (s "OK")) [(s "Content-Encoding", s "gzip")] (Unavail None) (Some (s "hello")) None]);
      (HarRequest (s "http") (s "GET") (s "/a?b=1") None [(s "host", s "example.com")] (Avail []) None, [])], HarDone).
Proof.
  split; [|reflexivity]. do 3 eexists. split; [member|]. split; [member|]. split; [member|]. split; [member|]. repeat constructor.
  - do 2 eexists. split; [member|]. split; [exact example_request_given|]. split; [member|]. split; [member|]. split; [member|].
    split; [split; [member|]; eexists; split; [member|]; repeat constructor; member|]. split; [member|]. eexists. split; [member|]. split; [member|]. split; [split; [discriminate|]; member|]. member.
  - do 2 eexists. split; [member|]. split; [exact example_request_given|]. split; [member|]. split; [member|]. split; [member|].
    split; [split; [member|]; eexists; split; [member|]; constructor|]. split; [member|]. eexists. split; [member|]. split; [member|]. split; [left; member|]. member.
Qed.
(** The same with a third entry in which the method is missing: the first two
    exchanges, then [InputError]. *)
Example C69_example :
  let j := har_of (JStr (s "Firefox")) (example_entries ++ [JObj [(s "request", JObj (example_message []))]]) in
  file_typed example_env j /\
  List.length (fst (har_input example_env [Some j])) = 2 /\ snd (har_input example_env [Some j]) = HarInputError.
Proof.
  cbv zeta. split; [|split; reflexivity]. intros log l e (o & E & L) (o2 & E2 & L2) I. injection E as <-. vm_compute in L. injection L as <-. injection E2 as <-. vm_compute in L2. injection L2 as <-.
  assert (X : forall o k (v : json), has (JObj o) k v -> lookup o (s k) = Some v) by (intros o0 k v (o1 & K & K2); injection K as <-; exact K2).
  assert (M : forall j t hs, has j "httpVersion" (JStr t) -> has j "headers" (JList hs) -> Forall (fun d => exists n v, d = JObj [(s "name", n); (s "value", JStr v)]) hs -> message_typed j).
  { intros j t hs (o0 & -> & A) B F. split; [intros v V; apply X in V; rewrite A in V; injection V as <-; eauto|]. intros l d v (o1 & K & L) Id V. injection K as <-. destruct B as (o2 & K & L'). injection K as <-. rewrite L in L'. injection L' as ->.
    rewrite Forall_forall in F. destruct (F d Id) as (n & v' & ->). apply X in V. vm_compute in V. injection V as <-. eauto. }
  cbn [In] in I. destruct I as [<-|[<-|[<-|[]]]]; (split; intros q Q; apply X in Q; vm_compute in Q; try discriminate Q; injection Q as <-).
  all: (split; [eapply M; [member|member|repeat constructor; do 2 eexists; reflexivity]|]).
  all: split; [intros u U; apply X in U; vm_compute in U; try discriminate U; injection U as <-; eexists; (split; [reflexivity|discriminate]) || reflexivity|].
  all: try (intros p P; apply X in P; vm_compute in P; discriminate P).
  all: (split; [intros c C; apply X in C; vm_compute in C; injection C as <-; eauto|]).
  all: (intros c e C V; apply X in C; vm_compute in C; injection C as <-; apply X in V; vm_compute in V; try discriminate V; injection V as <-; eauto).
Qed.
Example C70_example : exists x, In x (fst (har_input example_env [Some (har_of (JStr (s "WebInspector")) example_entries)])) /\
  exists r, snd x = [r] /\ hp_decoded r = Some (s "hello").
Proof. eexists. split; [left; reflexivity|]. eexists. split; reflexivity. Qed.
