(** An environment for examples: the parser is the real one, libraries are
    replaced by constants. *)
From Coq Require Import ZifyBool ZifyNat ZifyN String.
From Verif Require Import Base Earley Grammar Syntax Actions Nested P_Types Text Structure Known Tables Header Values ChecksBase ChecksMessage ChecksRequest ChecksResponse.
Open Scope nat_scope.
Open Scope list_scope.
Unset Strict Implicit.
Local Open Scope string_scope.
Local Open Scope list_scope.

(** A parser that knows some texts, and refuses all others. *)
Fixpoint knows (l : list (symbol * string * val)) (x : symbol) (w : str) : option (val * list vcomplaint) :=
  match l with
  | [] => None
  | (y, t, v) :: l' => if str_eqb (s t) w then if symbol_dec y x then Some (v, []) else knows l' x w else knows l' x w
  end.
Lemma knows_http l n : Forall (fun e => run_http n (fst (fst e)) (s (snd (fst e))) = Some (snd e, [])) l -> parses_http (knows l).
Proof.
  intro F. destruct (run_http_parses n) as [nst [again [A B]]]. exists nst, again. split; [exact A|]. intros x w v cs H. apply B.
  induction F as [|[[y t] u] l R F IH]; cbn [knows] in H; [discriminate H|]. cbn [fst snd] in R. destruct (str_eqb (s t) w) eqn:T; [|exact (IH H)].
  destruct (symbol_dec y x) as [->|]; [|exact (IH H)]. apply str_eqb_eq in T. subst w. congruence.
Qed.
Definition example_texts : list (symbol * string * val) := [
  (Expect, "100-Continue", VObj (s "CaseInsensitive") [VStr (s "100-Continue")]);
  (HTTPolice_Silence, "1070, 1110 resp", VList [VTuple [VInt 1070; VNone]; VTuple [VInt 1110; VBool true]]);
  (HTTPolice_Silence, "1048", VList [VTuple [VInt 1048; VNone]])].

Definition env_with (texts : list (symbol * string * val)) : env := {|
  e_read := knows texts; e_now := fun _ _ => 63600000000000000%Z;
  e_gzip := fun x => match x with 31%N :: l => Some l | _ => None end; e_deflate := fun _ => None; e_brotli := fun _ => None;
  e_codec := fun x => if str_eqb x (s "utf-8") then Fine (s "utf-8") else Refused; e_decode := fun _ x => Fine x; e_replace := fun x => x;
  e_json := fun x => JsonError; e_xml := fun x => XmlFine; e_email := fun _ => Raises; e_qs := fun _ => Got []; e_url := fun _ => Got ([], [], []);
  e_join := fun x y => Got y; e_base64 := fun _ => None; e_fnmatch := fun _ _ => false |}.
Definition example_env : env := env_with example_texts.
Definition headers_of (l : list (string * string)) : entries := Entries (map (fun kv => Entry (s (fst kv)) (s (snd kv))) l) [].
Lemma example_parses : parses_http (e_read example_env).
Proof. apply (@knows_http example_texts 600). repeat apply Forall_cons; try apply Forall_nil; vm_compute; reflexivity. Qed.

Lemma env_parses n texts : Forall (fun e => run_http n (fst (fst e)) (s (snd (fst e))) = Some (snd e, [])) texts -> parses_http (e_read (env_with texts)).
Proof. apply knows_http. Qed.

(** A request that waits for 100, and responses in a strange order. *)
Definition waiting_request : request :=
  Request (Message (Some (s "HTTP/1.1")) (headers_of [("Expect", "100-Continue"); ("HTTPolice-Silence", "1070, 1110 resp")]) (VBytes []) None None)
    (Some (s "http")) (s "GET") (s "/").
Definition empty_response (z : Z) (l : list (string * string)) : response :=
  Response (Message (Some (s "HTTP/1.1")) (headers_of l) (VBytes []) None None) z (Some (s "Whatever")).
Definition waiting_exchange : exchange := Exchange (Some waiting_request)
  [empty_response 101 [("HTTPolice-Silence", "1048")]; empty_response 204 []; empty_response 204 []].
Definition noted (ids : list N) (e : event) : bool := match e with Silenced _ _ => true | Said _ id _ => existsb (N.eqb id) ids end.
Lemma waiting_run : snd (check_exchange waiting_exchange example_env) = Ok tt /\
  filter (noted [1304; 1305]%N) (fst (check_exchange waiting_exchange example_env)) =
    [Silenced Req [1070%N]; Silenced (Resp 0) [1048%N]; Silenced (Resp 0) [1110%N]; Silenced (Resp 1) []; Silenced (Resp 1) [1110%N];
     Said (Resp 2) 1304 [(s "previous", CResponse 1)]; Silenced (Resp 2) []; Silenced (Resp 2) [1110%N]; Said (Resp 0) 1305 []].
Proof. vm_compute. split; reflexivity. Qed.
