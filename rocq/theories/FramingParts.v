(** Which part of a message a parse error of the framing is about: the stack that
    [with stream.parsing(...)] keeps (httpolice/stream.py:20-42). *)
From Coq Require Import String.
From Verif Require Import Base Stream StreamProofs Framing FramingBasics.
From Coq Require Import ZifyBool ZifyNat ZifyN.
Open Scope list_scope.
Unset Strict Implicit.

(** ** Model *)

(** The symbols made for parse errors (httpolice/framing1.py:18-24). *)
Inductive part := HttpMessage | RequestLine | StatusLine | HeaderField | ChunkedBody | Chunk | ChunkSize.
(** The stack [_currently_parsing], innermost first (httpolice/stream.py:24), beside the
    stream of [Stream.v].  When a computation raises [ParseError], the second
    component is the symbol in the error (httpolice/stream.py:39-42); otherwise it
    means nothing. *)
Definition T (A : Type) : Type := list (option part) * stream -> (outcome A * option part) * (list (option part) * stream).
(** What does not itself use the stack: errors refer to its innermost element. *)
Definition lift {A} (m : M A) : T A := fun z => let (r, st') := m (snd z) in ((r, hd None (fst z)), (fst z, st')).
Definition tret {A} (a : A) : T A := lift (ret a).
Definition tbind {A B} (t : T A) (f : A -> T B) : T B := fun z =>
  match t z with
  | ((Val a, _), z') => f a z'
  | ((ParseErr e, b), z') => ((ParseErr e, b), z')
  | ((TooLong n, b), z') => ((TooLong n, b), z')
  | ((ValueErr, b), z') => ((ValueErr, b), z')
  | ((Fuel, b), z') => ((Fuel, b), z')
  end.
(** [with stream.parsing(x): ...] (httpolice/stream.py:28-37): [__exit__] is called
    also when there is an exception. *)
Definition parsing {A} (x : part) (t : T A) : T A := fun z =>
  match t (Some x :: fst z, snd z) with (r, (stk, st)) => (r, (tl stk, st)) end.

(** One turn of the loop (httpolice/framing1.py:247-260). *)
Definition one_field (fuel : nat) : M entry :=
  p <- tell ;;
  line <- readline ;;
  match partition_at 58 line with
  | None => raise_error p ExpNothing
  | Some (name, v) => vs <- fold_lines fuel v ;; ret (name, strip vs)
  end.
(** httpolice/framing1.py:245-261 *)
Fixpoint traced_fields (fuel : nat) (acc : list entry) : T (list entry) :=
  match fuel with
  | O => lift (fun st => (Fuel, st))
  | S fuel' =>
      tbind (lift peek) (fun c =>
      match c with
      | None => tret acc
      | Some c =>
          if ((c =? 13) || (c =? 10))%N then tret acc
          else tbind (parsing HeaderField (lift (one_field fuel'))) (fun e => traced_fields fuel' (acc ++ [e]))
      end)
  end.
Definition traced_header : T (list entry) := fun z => traced_fields (S (S (List.length (rest (snd z))))) [] z.
(** httpolice/framing1.py:103-119 *)
Definition request_pieces (beginning : N) : M (str * str * str) :=
  line <- readline ;;
  match split_on 32 line with
  | [meth; target; version] => if is_http_version version then ret (meth, target, version) else raise_error beginning ExpNothing
  | _ => raise_error beginning ExpNothing
  end.
Definition request_done (beginning : N) (pieces : str * str * str) (es : list entry) : M request :=
  m <- dump_complaints RequestHeading (mkMessage es [] (Unavail None) beginning []) ;;
  ret (mkRequest (fst (fst pieces)) (snd (fst pieces)) (snd pieces) m).
Definition traced_request_heading : T request :=
  tbind (lift tell) (fun beginning =>
  tbind (parsing RequestLine (lift (request_pieces beginning))) (fun pieces =>
  tbind traced_header (fun es =>
  tbind (parsing HttpMessage (lift readlineend)) (fun _ =>
  lift (request_done beginning pieces es))))).
(** httpolice/framing1.py:180-200 *)
Definition response_pieces (beginning : N) : M (str * str * str) :=
  line <- readline ;;
  match split_on_2 32 line with
  | [version; status; reason] => if is_http_version version && is_status_code status then ret (version, status, reason) else raise_error beginning ExpNothing
  | _ => raise_error beginning ExpNothing
  end.
Definition response_done (beginning : N) (pieces : str * str * str) (es : list entry) : M response :=
  m <- dump_complaints ResponseHeading (mkMessage es [] (Unavail None) beginning []) ;;
  ret (mkResponse (fst (fst pieces)) (dec_value (snd (fst pieces))) (snd pieces) m).
Definition traced_response_heading : T response :=
  tbind (lift tell) (fun beginning =>
  tbind (parsing StatusLine (lift (response_pieces beginning))) (fun pieces =>
  tbind traced_header (fun es =>
  tbind (parsing HttpMessage (lift readlineend)) (fun _ =>
  lift (response_done beginning pieces es))))).
(** httpolice/framing1.py:296-313 *)
Definition size_of (p : N) (line : str) : M Z :=
  match py_int16 (rstrip (match partition_at 59 line with Some (a, _) => a | None => line end)) with
  | None => raise_error p ExpNothing
  | Some size => ret size
  end.
Definition traced_chunk (current : N) : T (option str) :=
  parsing Chunk (
  tbind (lift tell) (fun p =>
  tbind (lift readline) (fun line =>
  tbind (parsing ChunkSize (lift (size_of p line))) (fun size =>
  if (size =? 0)%Z then tret None
  else if (MAX_BODY_SIZE <? size + Z.of_N current)%Z then lift (fun st => (TooLong (size + Z.of_N current), set_sane false st))
  else tbind (lift (read size)) (fun d => tbind (lift readlineend) (fun _ => tret (Some d))))))).
Fixpoint traced_loop (fuel : nat) (acc : str) : T str :=
  match fuel with
  | O => lift (fun st => (Fuel, st))
  | S fuel' => tbind (traced_chunk (lenN acc)) (fun d => match d with None => tret acc | Some d => traced_loop fuel' (acc ++ d) end)
  end.
Definition traced_chunks : T str := fun z => traced_loop (S (List.length (rest (snd z)))) [] z.
(** httpolice/framing1.py:319-325 *)
Definition traced_chunked : T (str * list entry) :=
  tbind traced_chunks (fun data =>
  tbind traced_header (fun t =>
  tbind (parsing ChunkedBody (lift readlineend)) (fun _ => tret (data, t)))).

(** ** Specification *)

(** The header ends where the next byte is CR or LF, or there is none. *)
Definition stops (after : str) : bool := match after with [] => true | c :: _ => ((c =? 13) || (c =? 10))%N end.
(** An error in or after header fields is about a field, unless it is where the header ends. *)
Definition header_part (last : part) (st : stream) (e : perror) (b : option part) : Prop :=
  exists before after, rest st = before ++ after /\ pe_pos e = (pos st + lenN before)%N /\ b = Some (if stops after then last else HeaderField).
(** An error in a heading is about its first line if it is at the beginning. *)
Definition heading_part (first : part) (st : stream) (e : perror) (b : option part) : Prop :=
  if (pe_pos e =? pos st)%N then b = Some first else header_part HttpMessage st e b.
(** An error in chunked framing is about a chunk, or its size if that cannot be read; after the
    last chunk it is as in a header. *)
Definition chunked_part (st : stream) (e : perror) (b : option part) : Prop :=
  match parse_chunks st with
  | (Val _, st1) => header_part ChunkedBody st1 e b
  | _ => b = Some (match pe_expected e with ExpNothing => ChunkSize | _ => Chunk end)
  end.

(** ** Proofs *)

Definition follows {A} (t : T A) (m : M A) (B : stream -> option part -> perror -> option part -> Prop) : Prop :=
  forall stk st, match t (stk, st) with ((r, b), (stk', st')) => m st = (r, st') /\ stk' = stk /\ forall e, r = ParseErr e -> B st (hd None stk) e b end.
Lemma f_lift {A} (m : M A) : follows (lift m) m (fun st top e b => b = top /\ exists st', m st = (ParseErr e, st')).
Proof. intros stk st. unfold lift. cbn [fst snd]. destruct (m st) as [r st'] eqn:R. split; [reflexivity|]. split; [reflexivity|]. intros e ->. eauto. Qed.
Lemma f_weaken {A} (t : T A) m (B B' : stream -> option part -> perror -> option part -> Prop) : follows t m B -> (forall st top e b, B st top e b -> B' st top e b) -> follows t m B'.
Proof. intros F W stk st. specialize (F stk st). destruct (t (stk, st)) as [[r b] [stk' st']]. destruct F as (F1 & F2 & F3). repeat split; auto. Qed.
Lemma f_ext {A} (t : T A) m m' B : (forall st, m st = m' st) -> follows t m B -> follows t m' B.
Proof. intros X F stk st. specialize (F stk st). destruct (t (stk, st)) as [[r b] [stk' st']]. destruct F as (F1 & F2 & F3). rewrite X in F1. auto. Qed.
Lemma f_parsing {A} x (t : T A) m B : follows t m B -> follows (parsing x t) m (fun st _ e b => B st (Some x) e b).
Proof. intros F stk st. unfold parsing. cbn [fst snd]. specialize (F (Some x :: stk) st). destruct (t (Some x :: stk, st)) as [[r b] [stk' st']]. destruct F as (F1 & -> & F3). repeat split; auto. Qed.
Lemma f_bind {A C} (t : T A) (f : A -> T C) m g B1 (B2 : A -> stream -> option part -> perror -> option part -> Prop) (B : stream -> option part -> perror -> option part -> Prop) :
  follows t m B1 -> (forall a, follows (f a) (g a) (B2 a)) ->
  (forall st top e b, B1 st top e b -> B st top e b) -> (forall st a st1 top e b, m st = (Val a, st1) -> B2 a st1 top e b -> B st top e b) ->
  follows (tbind t f) (bind m g) B.
Proof.
  intros F G W1 W2 stk st. unfold tbind, bind. specialize (F stk st). destruct (t (stk, st)) as [[r b] [stk' st']]. destruct F as (F1 & -> & F3). rewrite F1.
  destruct r as [a|e|z| |]; try (repeat split; [discriminate]); try (split; [reflexivity|]; split; [reflexivity|]; intros; discriminate).
  - specialize (G a stk st'). destruct (f a (stk, st')) as [[r2 b2] [stk2 st2]]. destruct G as (G1 & G2 & G3). repeat split; auto. intros e Q. eapply W2; [exact F1|]. now apply G3.
  - split; [reflexivity|]. split; [reflexivity|]. intros e' Q. apply W1. injection Q as <-. now apply F3.
Qed.
Lemma f_calm {A} (m : M A) B : (forall st e st', m st <> (ParseErr e, st')) -> follows (lift m) m B.
Proof. intro N. apply (f_weaken (f_lift m)). intros st top e b [_ [st' H]]. destruct (N _ _ _ H). Qed.
Lemma f_ret {A} (a : A) B : follows (tret a) (ret a) B.
Proof. apply f_calm. discriminate. Qed.
Lemma readline_error st e st' : readline st = (ParseErr e, st') -> pe_pos e = pos st /\ pe_expected e <> ExpNothing.
Proof.
  unfold readline. destruct (take_line _ _) as [r rest']. intro H.
  assert (F : (if (max_line_length <=? lenN r)%N then @raise_error str (pos st) ExpLineLimit (after_read st (lenN r) rest') else raise_error (pos st) ExpLine (after_read st (lenN r) rest')) = (ParseErr e, st')).
  { destruct (rev r) as [|c l]; [exact H|]. destruct (c =? 10)%N; [|exact H]. destruct l as [|c2 l]; [discriminate H|]. destruct (c2 =? 13)%N; discriminate H. }
  destruct (_ <=? _)%N; unfold raise_error in F; injection F as <- _; (split; [reflexivity|discriminate]).
Qed.
Lemma lineend_error st e st' : readlineend st = (ParseErr e, st') -> pe_pos e = pos st /\ pe_expected e <> ExpNothing.
Proof.
  unfold readlineend. rewrite bind_tell. unfold bind. destruct (readline st) as [[l|e'|z| |] st1] eqn:R; intro H; try discriminate H.
  - destruct (is_nil l); [discriminate H|]. unfold raise_error in H. injection H as <- _. split; [reflexivity|discriminate].
  - injection H as <- _. exact (readline_error R).
Qed.
Lemma part_after last c st st1 e b : consumes c st st1 -> header_part last st1 e b -> header_part last st e b.
Proof.
  intros [C1 C2] (before & after & H1 & H2 & H3). exists (c ++ before), after. rewrite C1, H1, app_assoc. split; [reflexivity|]. split; [|exact H3].
  rewrite H2, C2. rewrite lenN_app. lia.
Qed.
Lemma moved {A} (m : M A) st a st1 : WB m -> m st = (Val a, st1) -> exists c, consumes c st st1.
Proof. intros W H. apply W in H. destruct H as [[C _ _ _ _] _ _]. exact C. Qed.
Lemma fold_error fuel : forall v st e st', fold_lines fuel v st = (ParseErr e, st') -> exists before c after, rest st = before ++ c :: after /\ pe_pos e = (pos st + lenN before)%N /\ is_blank c = true.
Proof.
  induction fuel as [|fuel IH]; intros v st e st' H; cbn [fold_lines] in H; [discriminate H|]. unfold peek, bind in H.
  destruct (rest st) as [|c l] eqn:R; [discriminate H|]. destruct (is_blank c) eqn:K; [|discriminate H]. cbn [complain] in H. unfold complain in H.
  destruct (readline (add_pending 1016 st)) as [[x|e'|z| |] st1] eqn:L; try discriminate H.
  - destruct (moved WB_readline L) as [d [D1 D2]]. apply IH in H. destruct H as (before & c' & after & H1 & H2 & H3). cbn [add_pending rest pos] in D1, D2. exists (d ++ before), c', after.
    rewrite <- R, D1, H1, <- app_assoc. split; [reflexivity|]. split; [|exact H3]. rewrite H2, D2. rewrite lenN_app. lia.
  - injection H as <- _. apply readline_error in L. destruct L as [L _]. exists [], c, l. split; [reflexivity|]. split; [rewrite L; cbn [add_pending pos]; cbn [lenN]; lia|exact K].
Qed.
Lemma field_error fuel st e st' : stops (rest st) = false -> one_field fuel st = (ParseErr e, st') -> forall last, header_part last st e (Some HeaderField).
Proof.
  intros S H last. unfold one_field in H. rewrite bind_tell in H. unfold bind in H.
  assert (A : pe_pos e = pos st -> header_part last st e (Some HeaderField)).
  { intro P. exists [], (rest st). split; [reflexivity|]. split; [rewrite P; cbn [lenN]; lia|now rewrite S]. }
  destruct (readline st) as [[l|e'|z| |] st1] eqn:L; try discriminate H.
  - destruct (partition_at 58 l) as [[name v]|].
    + destruct (fold_lines fuel v st1) as [[x|e'|z| |] st2] eqn:F; try discriminate H. injection H as <- _. destruct (moved WB_readline L) as [d D]. apply (part_after D).
      apply fold_error in F. destruct F as (before & c & after & H1 & H2 & H3). exists before, (c :: after). split; [exact H1|]. split; [exact H2|]. cbn [stops].
      assert (Q : ((c =? 13) || (c =? 10))%N = false) by (unfold is_blank in H3; lia). now rewrite Q.
    + unfold raise_error in H. injection H as <- _. apply A. reflexivity.
  - injection H as <- _. apply A. exact (proj1 (readline_error L)).
Qed.
Definition quiet_fields := fun (last : part) (st : stream) (top : option part) (e : perror) (b : option part) => header_part last st e b.
Lemma one_field_moves fuel : WB (one_field fuel).
Proof.
  apply WB_bind; [apply WB_tell|]. intro p. apply WB_bind; [apply WB_readline|]. intro l. destruct (partition_at 58 l) as [[n v]|]; [|apply WB_raise]. apply WB_bind; [apply WB_fold_lines|]. intro. apply WB_ret.
Qed.
Lemma fields_ext fuel acc st : header_fields (S fuel) acc st =
  bind peek (fun c => match c with None => ret acc | Some c => if ((c =? 13) || (c =? 10))%N then ret acc else bind (one_field fuel) (fun e => header_fields fuel (acc ++ [e])) end) st.
Proof.
  cbn [header_fields]. unfold bind at 1, bind at 4. unfold peek. destruct (rest st) as [|c l]; [reflexivity|]. destruct (_ || _); [reflexivity|].
  unfold one_field. rewrite bind_tell. unfold bind, tell. destruct (readline st) as [[x|e|z| |] st1]; try reflexivity.
  destruct (partition_at 58 x) as [[n v]|]; [|reflexivity]. destruct (fold_lines fuel v st1) as [[y|e|z| |] st2]; reflexivity.
Qed.
Lemma f_fields last fuel : forall acc, follows (traced_fields fuel acc) (header_fields fuel acc) (fun st _ e b => header_part last st e b).
Proof.
  induction fuel as [|fuel IH]; intro acc; [apply f_calm; discriminate|].
  apply (f_ext (m := bind peek (fun c => match c with None => ret acc | Some c => if ((c =? 13) || (c =? 10))%N then ret acc else bind (one_field fuel) (fun e => header_fields fuel (acc ++ [e])) end)));
    [intro st; symmetry; apply fields_ext|]. cbn [traced_fields].
  apply (f_bind (B1 := fun _ _ _ _ => False) (B2 := fun c st _ e b => match c with Some c => rest st <> [] /\ hd c (rest st) = c | None => True end -> header_part last st e b)).
  - apply f_calm. discriminate.
  - intros [c|]; [|apply f_ret]. destruct (_ || _) eqn:K; [apply f_ret|].
    apply (f_bind (B1 := fun st _ e b => b = Some HeaderField /\ exists st', one_field fuel st = (ParseErr e, st')) (B2 := fun _ st _ e b => header_part last st e b)).
    + apply (f_weaken (f_parsing HeaderField (f_lift (one_field fuel)))). auto.
    + intro e. apply IH.
    + intros st top e b [-> [st' H]] [N Q]. apply (@field_error fuel st e st'); [|exact H]. destruct (rest st) as [|d l]; [congruence|]. cbn [hd] in Q. subst d. exact K.
    + intros st a st1 top e b H P _. destruct (moved (@one_field_moves fuel) H) as [d D]. exact (part_after D P).
  - intros ? ? ? ? [].
  - intros st a st1 top e b H P. unfold peek in H. injection H as <- <-. apply P. destruct (rest st); [exact Logic.I|]. split; [discriminate|reflexivity].
Qed.
Lemma f_header last : follows traced_header parse_header_fields (fun st _ e b => header_part last st e b).
Proof. intros stk st. exact (@f_fields last _ [] stk st). Qed.
Lemma fields_stop fuel : forall acc st es st', header_fields fuel acc st = (Val es, st') -> stops (rest st') = true.
Proof.
  induction fuel as [|fuel IH]; intros acc st es st' H; [discriminate H|]. rewrite fields_ext in H. unfold bind at 1, peek in H. destruct (rest st) as [|c l] eqn:R.
  - injection H as _ <-. now rewrite R.
  - destruct (_ || _) eqn:K; [injection H as _ <-; rewrite R; exact K|]. unfold bind in H. destruct (one_field fuel st) as [[y|e|z| |] st1]; try discriminate H. exact (IH _ _ _ _ H).
Qed.
Lemma header_stop st es st' : parse_header_fields st = (Val es, st') -> stops (rest st') = true.
Proof. apply fields_stop. Qed.
(** The end of a header, as part of [x]. *)
Lemma f_end x (P : stream -> Prop) : (forall st, P st -> stops (rest st) = true) ->
  follows (parsing x (lift readlineend)) readlineend (fun st _ e b => P st -> header_part x st e b).
Proof.
  intro S. apply (f_weaken (f_parsing x (f_lift readlineend))). intros st top e b [-> [st' H]] Q. exists [], (rest st). split; [reflexivity|]. rewrite (S st Q). split; [|reflexivity].
  apply lineend_error in H. destruct H as [-> _]. cbn [lenN]. lia.
Qed.
Section Heading.
Variable first : part.
Variable pieces : N -> M (str * str * str).
Hypothesis moves : forall p, WB (pieces p).
Hypothesis fails : forall st e st', pieces (pos st) st = (ParseErr e, st') -> pe_pos e = pos st.
Hypothesis reads_one : forall st a st', pieces (pos st) st = (Val a, st') -> (pos st < pos st')%N.
Lemma f_rest {A} (k : list entry -> M A) : (forall es st e st', k es st <> (ParseErr e, st')) ->
  follows (tbind traced_header (fun es => tbind (parsing HttpMessage (lift readlineend)) (fun _ => lift (k es))))
    (bind parse_header_fields (fun es => bind readlineend (fun _ => k es))) (fun st _ e b => header_part HttpMessage st e b).
Proof.
  intro N. apply (f_bind (B1 := fun st _ e b => header_part HttpMessage st e b) (B2 := fun _ st _ e b => stops (rest st) = true -> header_part HttpMessage st e b)).
  - apply f_header.
  - intro es. apply (f_bind (B1 := fun st _ e b => stops (rest st) = true -> header_part HttpMessage st e b) (B2 := fun _ _ _ _ _ => False)).
    + apply (@f_end HttpMessage (fun st => stops (rest st) = true)); auto.
    + intro. apply f_calm. apply N.
    + auto.
    + intros ? ? ? ? ? ? ? [].
  - auto.
  - intros st es st1 top e b H P. destruct (moved WB_parse_header_fields H) as [c C]. apply (part_after C), P. exact (header_stop H).
Qed.
Lemma f_heading {A} (k : N -> str * str * str -> list entry -> M A) : (forall p q es st e st', k p q es st <> (ParseErr e, st')) ->
  follows (tbind (lift tell) (fun p => tbind (parsing first (lift (pieces p))) (fun q => tbind traced_header (fun es => tbind (parsing HttpMessage (lift readlineend)) (fun _ => lift (k p q es))))))
    (bind tell (fun p => bind (pieces p) (fun q => bind parse_header_fields (fun es => bind readlineend (fun _ => k p q es))))) (fun st _ e b => heading_part first st e b).
Proof.
  intro N. apply (f_bind (B1 := fun _ _ _ _ => False) (B2 := fun p st _ e b => p = pos st -> heading_part first st e b)).
  - apply f_calm. discriminate.
  - intro p. apply (f_bind (B1 := fun st _ e b => b = Some first /\ exists st', pieces p st = (ParseErr e, st')) (B2 := fun _ st _ e b => header_part HttpMessage st e b)).
    + apply (f_weaken (f_parsing first (f_lift (pieces p)))). auto.
    + intro q. now apply f_rest.
    + intros st top e b [-> [st' H]] ->. unfold heading_part. rewrite (fails H), N.eqb_refl. reflexivity.
    + intros st q st1 top e b H P ->. destruct (moved (@moves _) H) as [c C]. apply reads_one in H. unfold heading_part. pose proof P as P'. destruct P' as (before & after & _ & P2 & _).
      replace (pe_pos e =? pos st)%N with false by lia. exact (part_after C P).
  - intros ? ? ? ? [].
  - intros st p st1 top e b H P. injection H as <- <-. now apply P.
Qed.
End Heading.

Lemma line_read st l st' : readline st = (Val l, st') -> (pos st < pos st')%N.
Proof.
  intro H. apply readline_facts in H. remember (Val l) as o eqn:O. destruct H as [line term st2 _ Ht _ C _ _ _|]; [|discriminate O]. destruct C as [_ C]. rewrite C, lenN_app. destruct Ht as [-> |[-> _]]; cbn [lenN]; lia.
Qed.
Lemma request_pieces_moves p : WB (request_pieces p).
Proof.
  apply WB_bind; [apply WB_readline|]. intro l. destruct (split_on 32 l) as [|a [|b [|c [|]]]]; try apply WB_raise. destruct (is_http_version c); [apply WB_ret|apply WB_raise].
Qed.
Lemma request_pieces_fail st e st' : request_pieces (pos st) st = (ParseErr e, st') -> pe_pos e = pos st.
Proof.
  unfold request_pieces, bind. destruct (readline st) as [[l|e'|z| |] st1] eqn:L; intro H; try discriminate H.
  - destruct (split_on 32 l) as [|a [|b [|c [|]]]]; try (unfold raise_error in H; injection H as <- _; reflexivity).
    destruct (is_http_version c); [discriminate H|unfold raise_error in H; injection H as <- _; reflexivity].
  - injection H as <- _. exact (proj1 (readline_error L)).
Qed.
Lemma request_pieces_read st a st' : request_pieces (pos st) st = (Val a, st') -> (pos st < pos st')%N.
Proof.
  unfold request_pieces, bind. destruct (readline st) as [[l|e'|z| |] st1] eqn:L; intro H; try discriminate H. apply line_read in L.
  destruct (split_on 32 l) as [|x [|y [|z [|]]]]; try discriminate H. destruct (is_http_version z); [|discriminate H]. now injection H as _ <-.
Qed.
Lemma response_pieces_moves p : WB (response_pieces p).
Proof.
  apply WB_bind; [apply WB_readline|]. intro l. destruct (split_on_2 32 l) as [|a [|b [|c [|]]]]; try apply WB_raise. destruct (_ && _); [apply WB_ret|apply WB_raise].
Qed.
Lemma response_pieces_fail st e st' : response_pieces (pos st) st = (ParseErr e, st') -> pe_pos e = pos st.
Proof.
  unfold response_pieces, bind. destruct (readline st) as [[l|e'|z| |] st1] eqn:L; intro H; try discriminate H.
  - destruct (split_on_2 32 l) as [|a [|b [|c [|]]]]; try (unfold raise_error in H; injection H as <- _; reflexivity).
    destruct (_ && _); [discriminate H|unfold raise_error in H; injection H as <- _; reflexivity].
  - injection H as <- _. exact (proj1 (readline_error L)).
Qed.
Lemma response_pieces_read st a st' : response_pieces (pos st) st = (Val a, st') -> (pos st < pos st')%N.
Proof.
  unfold response_pieces, bind. destruct (readline st) as [[l|e'|z| |] st1] eqn:L; intro H; try discriminate H. apply line_read in L.
  destruct (split_on_2 32 l) as [|x [|y [|z [|]]]]; try discriminate H. destruct (_ && _); [|discriminate H]. now injection H as _ <-.
Qed.
Lemma f_request_heading : follows traced_request_heading parse_request_heading (fun st _ e b => heading_part RequestLine st e b).
Proof.
  eapply f_ext; [|apply (@f_heading RequestLine request_pieces request_pieces_moves request_pieces_fail request_pieces_read _ request_done); discriminate].
  intro st. unfold parse_request_heading, request_pieces, request_done. rewrite !bind_tell. unfold bind. destruct (readline st) as [[l|e|z| |] st1]; try reflexivity.
  destruct (split_on 32 l) as [|a [|b [|c [|]]]]; try reflexivity. destruct (is_http_version c); reflexivity.
Qed.
Lemma f_response_heading : follows traced_response_heading parse_response_heading (fun st _ e b => heading_part StatusLine st e b).
Proof.
  eapply f_ext; [|apply (@f_heading StatusLine response_pieces response_pieces_moves response_pieces_fail response_pieces_read _ response_done); discriminate].
  intro st. unfold parse_response_heading, response_pieces, response_done. rewrite !bind_tell. unfold bind. destruct (readline st) as [[l|e|z| |] st1]; try reflexivity.
  destruct (split_on_2 32 l) as [|a [|b [|c [|]]]]; try reflexivity. destruct (_ && _); reflexivity.
Qed.
Definition chunk_part (st : stream) (top : option part) (e : perror) (b : option part) : Prop := b = Some (match pe_expected e with ExpNothing => ChunkSize | _ => Chunk end).
Lemma chunk_ext n st : parse_chunk n st =
  bind tell (fun p => bind readline (fun line => bind (size_of p line) (fun size =>
    if (size =? 0)%Z then ret None
    else if (MAX_BODY_SIZE <? size + Z.of_N n)%Z then (fun st => (TooLong (size + Z.of_N n), set_sane false st))
    else bind (read size) (fun d => bind readlineend (fun _ => ret (Some d)))))) st.
Proof.
  unfold parse_chunk. rewrite !bind_tell. unfold bind. destruct (readline st) as [[l|e|z| |] st1]; try reflexivity. unfold size_of. destruct (py_int16 _); reflexivity.
Qed.
Lemma named_chunk e b : b = Some Chunk -> pe_expected e <> ExpNothing -> b = Some (match pe_expected e with ExpNothing => ChunkSize | _ => Chunk end).
Proof. intros -> N. destruct (pe_expected e); congruence. Qed.
Lemma read_error n st e st' : read n st = (ParseErr e, st') -> pe_expected e <> ExpNothing.
Proof.
  unfold read. destruct (_ <? _)%Z; [discriminate|]. destruct (if (n =? -1)%Z then _ else _) as [r l]. destruct (_ && _); [|discriminate]. unfold raise_error. intro H. injection H as <- _. discriminate.
Qed.
Lemma f_chunk n : follows (traced_chunk n) (parse_chunk n) chunk_part.
Proof.
  eapply f_ext; [intro st; symmetry; apply chunk_ext|]. unfold traced_chunk.
  set (B := fun (_ : stream) (top : option part) (e : perror) (b : option part) => top = Some Chunk -> b = Some (match pe_expected e with ExpNothing => ChunkSize | _ => Chunk end)).
  apply (f_weaken (B := fun st _ e b => B st (Some Chunk) e b)); [|intros st top e b H; now apply H]. apply f_parsing.
  apply (f_bind (B1 := B) (B2 := fun _ => B)); [apply f_calm; discriminate| |auto|auto]. intro p.
  apply (f_bind (B1 := B) (B2 := fun _ => B)); [| |auto|auto].
  { apply (f_weaken (f_lift readline)). intros st top e b [-> [st' H]] ->. apply named_chunk; [reflexivity|exact (proj2 (readline_error H))]. }
  intro line. apply (f_bind (B1 := B) (B2 := fun _ => B)); [| |auto|auto].
  { apply (f_weaken (f_parsing ChunkSize (f_lift (size_of p line)))). intros st top e b [-> [st' H]] _. unfold size_of in H. destruct (py_int16 _); [discriminate H|]. unfold raise_error in H. injection H as <- _. reflexivity. }
  intro size. destruct (size =? 0)%Z; [apply f_ret|]. destruct (_ <? _)%Z; [apply f_calm; discriminate|].
  apply (f_bind (B1 := B) (B2 := fun _ => B)); [| |auto|auto].
  { apply (f_weaken (f_lift (read size))). intros st top e b [-> [st' H]] ->. apply named_chunk; [reflexivity|exact (read_error H)]. }
  intro d. apply (f_bind (B1 := B) (B2 := fun _ => B)); [| |auto|auto]; [|intro; apply f_ret].
  apply (f_weaken (f_lift readlineend)). intros st top e b [-> [st' H]] ->. apply named_chunk; [reflexivity|exact (proj2 (lineend_error H))].
Qed.
Lemma f_loop fuel : forall acc, follows (traced_loop fuel acc) (chunks_loop fuel acc) chunk_part.
Proof.
  induction fuel as [|fuel IH]; intro acc; [apply f_calm; discriminate|]. cbn [traced_loop chunks_loop]. apply (f_bind (B1 := chunk_part) (B2 := fun _ => chunk_part)); [apply f_chunk| |auto|auto].
  intros [d|]; [apply IH|apply f_ret].
Qed.
Lemma f_chunks : follows traced_chunks parse_chunks (fun st _ e b => chunk_part st None e b /\ exists st', parse_chunks st = (ParseErr e, st')).
Proof.
  intros stk st. pose proof (@f_loop (S (List.length (rest st))) [] stk st) as F. unfold traced_chunks. cbn [snd]. destruct (traced_loop _ _ _) as [[r b] [stk' st']]. destruct F as (F1 & F2 & F3).
  split; [exact F1|]. split; [exact F2|]. intros e ->. split; [exact (F3 e eq_refl)|]. exists st'. exact F1.
Qed.
Lemma f_chunked : follows traced_chunked chunked_framing (fun st _ e b => chunked_part st e b).
Proof.
  apply (f_bind (B1 := fun st _ e b => chunk_part st None e b /\ exists st', parse_chunks st = (ParseErr e, st')) (B2 := fun _ st _ e b => header_part ChunkedBody st e b)).
  - apply f_chunks.
  - intro data. apply (f_bind (B1 := fun st _ e b => header_part ChunkedBody st e b) (B2 := fun _ st _ e b => stops (rest st) = true -> header_part ChunkedBody st e b)).
    + apply f_header.
    + intro es. apply (f_bind (B1 := fun st _ e b => stops (rest st) = true -> header_part ChunkedBody st e b) (B2 := fun _ _ _ _ _ => False)).
      * apply (@f_end ChunkedBody (fun st => stops (rest st) = true)); auto.
      * intro. apply f_ret.
      * auto.
      * intros ? ? ? ? ? ? ? [].
    + auto.
    + intros st es st1 top e b H P. destruct (moved WB_parse_header_fields H) as [c C]. apply (part_after C), P. exact (header_stop H).
  - intros st top e b [H [st' Q]]. unfold chunked_part. rewrite Q. exact H.
  - intros st d st1 top e b H P. unfold chunked_part. rewrite H. exact P.
Qed.
