(** C14, C15, C16: every run of [parse_streams] ends, makes progress and
    accounts for every byte of both streams. *)
From Verif Require Import Base Stream StreamProofs Framing FramingBasics FramingRuns FramingTop.

(** Two streams given as bytes, parsed to the end. *)
Definition parse_bytes (E : env) (inbound outbound : option str) : result :=
  parse_streams E (option_map new_stream inbound) (option_map new_stream outbound).

Definition length_of (d : option str) : nat :=
  match d with Some x => List.length x | None => 0%nat end.

(** A trivial environment for the examples: Transfer-Encoding is a single
    coding, and nothing can be decompressed. *)
Definition env0 : env := mkEnv (fun v => Some [Some v]) (fun _ => None) (fun _ => None).

Definition crlf (x : string) : str := s x ++ [13; 10].

Definition sample_in : str :=
  crlf "POST / HTTP/1.1" ++ crlf "Content-Length: 3" ++ crlf "" ++ s "abc" ++
  crlf "CONNECT x:1 HTTP/1.1" ++ crlf "" ++ s "tunnelled".
Definition sample_out : str :=
  crlf "HTTP/1.1 100 Continue" ++ crlf "" ++
  crlf "HTTP/1.1 200 OK" ++ crlf "Content-Length: 2" ++ crlf "" ++ s "hi" ++
  crlf "HTTP/1.1 200 Yes" ++ crlf "" ++ s "also tunnelled".

(** C14: the run ends by itself, and the number of exchanges is at most the
    number of bytes plus five. *)
Theorem C14_framing_terminates :
  forall (E : env) (inbound outbound : option str),
    how (parse_bytes E inbound outbound) <> OutOfFuel /\
    (List.length (yielded (parse_bytes E inbound outbound))
       <= length_of inbound + length_of outbound + 5)%nat.
Proof. intros E i o. split; [exact (@run_terminates E i o)|exact (@run_count E i o)]. Qed.
Print Assumptions C14_framing_terminates.

Example C14_example :
  let r := parse_bytes env0 (Some sample_in) (Some sample_out) in
  how r = Finished /\ List.length (yielded r) = 4%nat.
Proof. vm_compute. auto. Qed.

(** C15: the bytes left unread at the end of a stream are reported by exactly
    one box, notice 1007 or 1010, with the right offset; nothing is reported
    when the stream was read to its end. *)
Definition is_offset_box (id : N) (x : exchange) : bool :=
  match x with ComplaintBox (BoxOffset j _) => id =? j | _ => false end.

Definition unread_reported (id : N) (data : str) (final : option stream) (ys : list exchange) : Prop :=
  exists read unread,
    data = read ++ unread /\
    option_map rest final = Some unread /\
    filter (is_offset_box id) ys =
      match unread with
      | [] => []
      | _ => [ComplaintBox (BoxOffset id (N.of_nat (List.length read)))]
      end.

Theorem C15_no_byte_dropped :
  forall (E : env) (inbound outbound : option str),
    let r := parse_bytes E inbound outbound in
    how r = Finished ->
    (forall data, inbound = Some data -> unread_reported 1007 data (inb r) (yielded r)) /\
    (forall data, outbound = Some data -> unread_reported 1010 data (outb r) (yielded r)).
Proof.
  intros E i o r F. destruct (@run_accounted E i o F) as [A B]. split; intros d K.
  - destruct (A d K) as (st & H1 & c & H2 & H3 & H4). exists c, (rest st).
    subst r. unfold parse_bytes. rewrite H1, <- lenN_length.
    split; [exact H2|]. split; [reflexivity|exact H4].
  - destruct (B d K) as (st & H1 & c & H2 & H3 & H4). exists c, (rest st).
    subst r. unfold parse_bytes. rewrite H1, <- lenN_length.
    split; [exact H2|]. split; [reflexivity|exact H4].
Qed.
Print Assumptions C15_no_byte_dropped.

Example C15_example :
  let r := parse_bytes env0 (Some sample_in) (Some sample_out) in
  how r = Finished /\
  skipn 2 (yielded r) = [ComplaintBox (BoxOffset 1007 65); ComplaintBox (BoxOffset 1010 85)].
Proof. vm_compute. auto. Qed.

(** C16: at least one exchange (or complaint box) comes out whenever at least
    one stream was given, even an empty one. *)
Theorem C16_at_least_one_exchange :
  forall (E : env) (inbound outbound : option str),
    inbound <> None \/ outbound <> None ->
    how (parse_bytes E inbound outbound) = Finished ->
    yielded (parse_bytes E inbound outbound) <> [].
Proof. intros E i o D F. exact (@run_nonempty E i o D F). Qed.
Print Assumptions C16_at_least_one_exchange.

Example C16_example :
  let r := parse_bytes env0 (Some []) None in
  how r = Finished /\ yielded r = [ComplaintBox (BoxError 1006 (mkPerror 0 ExpLine))].
Proof. vm_compute. auto. Qed.
