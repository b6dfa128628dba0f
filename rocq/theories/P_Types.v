(** C64: what the parsed value of every known header looks like.
    C65: no semantic action of the grammar raises an exception, except on Link
    parameters without a value. *)
From Coq Require Import ZifyBool ZifyNat ZifyN String.
From Verif Require Import Base Earley EarleySpec Parse P_Earley Grammar GrammarSem GrammarVals GrammarCalc Syntax Actions Reading Types Nested NestedTypes Known.
Open Scope nat_scope.
Open Scope list_scope.
Unset Strict Implicit.

(** ** Specification *)

(** Descriptions of values. *)
Inductive shape :=
| Text                                   (* a string *)
| Name                                   (* a string, not empty *)
| Whole                                  (* an int, not negative *)
| Decimal                                (* a float *)
| Truth                                  (* a bool *)
| Octets                                 (* bytes *)
| Nothing                                (* None *)
| Unread                                 (* Unavailable *)
| Word (x : string)                      (* this string *)
| OneOf (l : list shape)
| Many (x : shape)                       (* a list *)
| Many1 (x : shape)                      (* a list, not empty *)
| Tuple (l : list shape)
| Make (c : string) (l : list shape)     (* an instance of the class [c], made from these *)
| Crash.                                 (* an exception *)

Definition one_of (l : list Prop) : Prop := fold_right or False l.
Fixpoint each (ps : list (val -> Prop)) (vs : list val) : Prop :=
  match ps, vs with
  | [], [] => True
  | p :: ps', v :: vs' => p v /\ each ps' vs'
  | _, _ => False
  end.
Fixpoint fits (x : shape) (v : val) {struct x} : Prop :=
  match x with
  | Text => exists t, v = VStr t
  | Name => exists t, v = VStr t /\ t <> []
  | Whole => exists z, v = VInt z /\ (0 <= z)%Z
  | Decimal => exists t, v = VFloat t
  | Truth => exists b, v = VBool b
  | Octets => exists t, v = VBytes t
  | Nothing => v = VNone
  | Unread => exists u, v = VUnavailable u
  | Word t => v = VStr (s t)
  | OneOf l => one_of (map (fun y => fits y v) l)
  | Many y => exists l, v = VList l /\ Forall (fits y) l
  | Many1 y => exists l, v = VList l /\ l <> [] /\ Forall (fits y) l
  | Tuple l => exists vs, v = VTuple vs /\ each (map fits l) vs
  | Make c l => exists vs, v = VObj (s c) vs /\ each (map fits l) vs
  | Crash => v = VBad
  end.

Local Open Scope string_scope.
Notation "a 'or' b" := (OneOf [a; b]) (at level 60, right associativity).
Definition parametrized_by (x p : shape) : shape := Make "Parametrized" [x; p].
Definition params (name value : shape) : shape := Make "MultiDict" [Many (Tuple [name; value])].
Definition ci : shape := Make "CaseInsensitive" [Name].
Definition a (c : string) : shape := Make c [Name].
Definition weight : shape := Decimal or Nothing.
Definition media_type : shape := a "MediaType".
Definition media_range : shape := parametrized_by (media_type or Name) (params ci Text).
Definition language_tag : shape := a "LanguageTag".
Definition moment : shape := Make "datetime" [Whole; Whole; Whole; Whole; Whole; Whole] or Unread.
Definition tag : shape := Make "EntityTag" [Truth; Name].
Definition product : shape := Make "Versioned" [a "ProductName"; Name or Nothing].
Definition ext_value_shape : shape := Make "ExtValue" [ci; language_tag or Nothing; Octets].
Definition credentials : shape := parametrized_by (a "AuthScheme") (Name or params ci Text).
Definition argument (c : string) (x : shape) : shape := parametrized_by (a c) x.

Definition value_shapes : list (string * shape) := [
  ("Accept", Many (parametrized_by media_range (Make "MultiDict" [Many (Tuple [ci or Name; Decimal or Text or Nothing])])));
  ("Accept-Charset", Many (parametrized_by (a "Charset") weight));
  ("Accept-Encoding", Many (parametrized_by (a "ContentCoding" or Word "*") weight));
  ("Accept-Language", Many (parametrized_by ci weight));
  ("Accept-Patch", Many (parametrized_by media_type (params ci Text)));
  ("Accept-Post", Many media_range);
  ("Accept-Ranges", Many (a "RangeUnit") or ci);
  ("Access-Control-Allow-Credentials", Word "true");
  ("Access-Control-Allow-Headers", Many (a "FieldName"));
  ("Access-Control-Allow-Methods", Many (a "Method"));
  ("Access-Control-Allow-Origin", Name);
  ("Access-Control-Expose-Headers", Many (a "FieldName"));
  ("Access-Control-Max-Age", Whole);
  ("Access-Control-Request-Headers", Many (a "FieldName"));
  ("Access-Control-Request-Method", a "Method");
  ("Age", Whole);
  ("Allow", Many (a "Method"));
  ("Alt-Svc", Word "clear" or Many (parametrized_by (Tuple [Octets; Unread or Name]) (params (a "AltSvcParam") Text)));
  ("Alt-Used", Text);
  ("Authorization", credentials);
  ("Cache-Control", Many (argument "CacheDirective" (Nothing or Tuple [Word "token" or Word "quoted-string"; Text])));
  ("Connection", Many (a "ConnectionOption"));
  ("Content-Disposition", parametrized_by ci (params ci (Text or ext_value_shape)));
  ("Content-Encoding", Many (a "ContentCoding"));
  ("Content-Language", Many language_tag);
  ("Content-Length", Whole);
  ("Content-Location", Text);
  ("Content-Range", Make "ContentRange" [a "RangeUnit"; Text or Tuple [Nothing; Whole] or Tuple [Tuple [Whole; Whole]; Whole or Nothing]]);
  ("Content-Type", parametrized_by media_type (params ci Text));
  ("Cross-Origin-Resource-Policy", Name);
  ("Date", moment);
  ("ETag", tag);
  ("Expect", ci);
  ("Expires", moment);
  ("Forwarded", Many (Many (Tuple [a "ForwardedParam"; Text])));
  ("HTTP2-Settings", Name);
  ("HTTPolice-Silence", Many (Tuple [Whole; Truth or Nothing]));
  ("Host", Text);
  ("If-Match", Word "*" or Many tag);
  ("If-Modified-Since", moment);
  ("If-None-Match", Word "*" or Many tag);
  ("If-Range", tag or moment);
  ("If-Unmodified-Since", moment);
  ("Last-Modified", moment);
  ("Link", Many (parametrized_by Text
     (Crash or params ci (Nothing or Text or Unread or Many1 (Text or ci) or language_tag or media_type or ext_value_shape))));
  ("Location", Text);
  ("Max-Forwards", Whole);
  ("Origin", Name);
  ("Pragma", Many (ci or parametrized_by Name (Text or Nothing)));
  ("Prefer", Many (parametrized_by (argument "Preference" (Text or Nothing)) (Many (Nothing or parametrized_by ci (Text or Nothing)))));
  ("Preference-Applied", Many (argument "Preference" (Text or Nothing)));
  ("Proxy-Authenticate", Many credentials);
  ("Proxy-Authorization", credentials);
  ("Range", Make "RangeSpecifier" [a "RangeUnit"; Text or Many (Tuple [Nothing; Whole] or Tuple [Whole; Whole or Nothing])]);
  ("Referer", Text);
  ("Retry-After", Whole or moment);
  ("Server", Many1 (product or Text));
  ("Strict-Transport-Security", Many (argument "HSTSDirective" (Text or Nothing)));
  ("TE", Many (ci or parametrized_by (parametrized_by (a "TransferCoding") (params Name Text)) weight));
  ("Trailer", Many (a "FieldName"));
  ("Transfer-Encoding", Many (parametrized_by (a "TransferCoding") (params Name Text)));
  ("Upgrade", Many (Make "Versioned" [a "UpgradeToken"; Name or Nothing]));
  ("User-Agent", Many1 (product or Text));
  ("Vary", Word "*" or Many (a "FieldName"));
  ("Via", Many (Tuple [Make "Versioned" [Name; Name]; Text; Text or Nothing]));
  ("WWW-Authenticate", Many credentials);
  ("Warning", Many (Make "WarningValue" [a "WarnCode"; Text; Text; Nothing or moment]));
  ("X-Content-Type-Options", Name)].
Local Close Scope string_scope.

(** [read] is what [parse()] does; [again] is what it does when called from a
    semantic action.  (The symbols read so have no such actions themselves.) *)
Definition parses (nst : pyf -> list val -> val * list vcomplaint) (read : symbol -> str -> option (val * list vcomplaint)) : Prop :=
  forall x w v cs, read x w = Some (v, cs) ->
  exists annotated r, reads nst annotated x w (Accepted r) /\ pr_node r = v /\ pr_complaints r = cs.
Definition parses_http (read : symbol -> str -> option (val * list vcomplaint)) : Prop :=
  exists nst again, parses nst again /\ parses (nested again) read.

(** ** Proofs *)

Fixpoint inside (x : shape) (t : ty) {struct x} : bool :=
  match x, t with
  | Text, (TStr _ _ _ | TLit _) => true
  | Name, TStr _ (S _) _ => true
  | Name, TLit (_ :: _) => true
  | Whole, TInt => true
  | Decimal, TFloat => true
  | Truth, TBool => true
  | Octets, TBytes => true
  | Nothing, TNone => true
  | Unread, TUnav => true
  | Word y, TLit z => str_eqb z (s y)
  | Word y, TStr b 1 (Some 1) => str_eqb (s y) [N.log2 b] && N.eqb b (N.shiftl 1 (N.log2 b))
  | OneOf l, _ => (existsb (fun y => inside y t) l)
  | Many y, TList _ elts => forallb (inside y) elts
  | Many1 y, TList true elts => forallb (inside y) elts
  | Tuple l, TTuple args =>
      (fix go (l : list shape) (args : list (list ty)) : bool :=
         match l, args with
         | [], [] => true
         | y :: l', ts :: args' => forallb (inside y) ts && go l' args'
         | _, _ => false
         end) l args
  | Make c l, TObj c' args =>
      str_eqb c' (s c) &&
      (fix go (l : list shape) (args : list (list ty)) : bool :=
         match l, args with
         | [], [] => true
         | y :: l', ts :: args' => forallb (inside y) ts && go l' args'
         | _, _ => false
         end) l args
  | Crash, TBad => true
  | _, _ => false
  end.

Definition basic (x : shape) : bool := match x with OneOf _ | Many _ | Many1 _ | Tuple _ | Make _ _ => false | _ => true end.
Section ShapeInd.
Variable P : shape -> Prop.
Hypothesis H0 : forall x, basic x = true -> P x.
Hypothesis H1 : forall l, Forall P l -> P (OneOf l).
Hypothesis H2 : forall x, P x -> P (Many x).
Hypothesis H3 : forall x, P x -> P (Many1 x).
Hypothesis H4 : forall l, Forall P l -> P (Tuple l).
Hypothesis H5 : forall c l, Forall P l -> P (Make c l).
Fixpoint shape_ind' (x : shape) : P x :=
  let all := fix all (l : list shape) : Forall P l := match l with [] => Forall_nil _ | y :: l' => Forall_cons y (shape_ind' y) (all l') end in
  match x with
  | OneOf l => H1 (all l)
  | Many y => H2 (shape_ind' y)
  | Many1 y => H3 (shape_ind' y)
  | Tuple l => H4 (all l)
  | Make c l => H5 c (all l)
  | Text => @H0 Text eq_refl
  | Name => @H0 Name eq_refl
  | Whole => @H0 Whole eq_refl
  | Decimal => @H0 Decimal eq_refl
  | Truth => @H0 Truth eq_refl
  | Octets => @H0 Octets eq_refl
  | Nothing => @H0 Nothing eq_refl
  | Unread => @H0 Unread eq_refl
  | Word y => @H0 (Word y) eq_refl
  | Crash => @H0 Crash eq_refl
  end.
End ShapeInd.

Lemma inside_ok x : forall t v, inside x t = true -> has t v -> fits x v.
Proof.
  assert (U : forall y ts v, (forall t v, inside y t = true -> has t v -> fits y v) -> forallb (inside y) ts = true -> hasu ts v -> fits y v).
  { intros y ts v IH F H. apply hasu_iff in H. destruct H as [t [It Ht]]. rewrite forallb_forall in F. eauto. }
  assert (G : forall l args vs, Forall (fun y => forall t v, inside y t = true -> has t v -> fits y v) l ->
    (fix go (l : list shape) (args : list (list ty)) : bool :=
         match l, args with
         | [], [] => true
         | y :: l', ts :: args' => forallb (inside y) ts && go l' args'
         | _, _ => false
         end) l args = true -> Forall2 hasu args vs -> each (map fits l) vs).
  { intros l args vs F. revert args vs. induction F as [|y l Hy F IH]; intros args vs E H; destruct args as [|ts args]; try discriminate E.
    - inversion H. exact I.
    - apply andb_true_iff in E. destruct E as [E1 E2]. inversion H as [|? v ? vs' A1 A2]; subst. cbn [map each]. split; [eapply U; eauto|eapply IH; eauto]. }
  induction x as [x B|l IH|x IH|x IH|l IH|c l IH] using shape_ind'.
  - destruct x; try discriminate B; intros t v E H; destruct t; try discriminate E.
    + destruct H as [y [-> _]]. now exists y.
    + cbn in H. subst. now exists x.
    + cbn [inside] in E. destruct lo; [discriminate|]. destruct H as [y [-> [_ [L _]]]]. exists y. split; [reflexivity|]. intros ->. cbn in L. lia.
    + cbn in H. subst. exists x. split; [reflexivity|]. destruct x; discriminate.
    + exact H.
    + exact H.
    + exact H.
    + exact H.
    + exact H.
    + exact H.
    + cbn [inside] in E. destruct lo as [|[|]]; try discriminate E. destruct hi as [[|[|]]|]; try discriminate E.
      apply andb_true_iff in E. destruct E as [E B1]. apply str_eqb_eq in E. apply N.eqb_eq in B1. destruct H as [y [-> [G1 [L W]]]]. cbn in W.
      destruct y as [|c [|? ?]]; cbn in L, W; try lia. inversion G1 as [|? ? T _]; subst. cbn [fits]. rewrite E. f_equal. f_equal.
      rewrite B1, N.shiftl_1_l, N.pow2_bits_eqb in T. apply N.eqb_eq in T. now symmetry.
    + cbn in H. subst. cbn [inside] in E. apply str_eqb_eq in E. now subst.
    + exact H.
  - intros t v E H. cbn [inside] in E. apply existsb_exists in E. destruct E as [y [Iy Ey]]. rewrite Forall_forall in IH. specialize (IH y Iy t v Ey H).
    cbn [fits]. clear - Iy IH. induction l as [|z l IHl]; [destruct Iy|]. cbn. destruct Iy as [->|Iy]; [now left|right; apply IHl; exact Iy].
  - intros t v E H. destruct t; try discriminate E. cbn [inside] in E. apply has_list in H. destruct H as [l [-> [_ F]]]. exists l. split; [reflexivity|].
    eapply Forall_impl; [|exact F]. intros w Hw. eapply U; eauto.
  - intros t v E H. destruct t; try discriminate E. cbn [inside] in E. destruct ne; [|discriminate]. apply has_list in H. destruct H as [l [-> [N F]]]. exists l. split; [reflexivity|].
    split; [auto|]. eapply Forall_impl; [|exact F]. intros w Hw. eapply U; eauto.
  - intros t v E H. destruct t; try discriminate E. cbn [inside] in E. apply has_tuple in H. destruct H as [vs [-> F]]. exists vs. split; [reflexivity|]. eapply G; eauto.
  - intros t v E H. destruct t; try discriminate E. cbn [inside] in E. apply andb_true_iff in E. destruct E as [Ec E]. apply str_eqb_eq in Ec. subst.
    apply has_obj in H. destruct H as [vs [-> F]]. exists vs. split; [reflexivity|]. eapply G; eauto.
Qed.

Lemma parses_typed nst nty read : (forall p ts vs, Forall2 has ts vs -> hasu (nty p ts) (fst (nst p vs))) -> parses nst read -> typed_reader nty read.
Proof.
  intros Ok P x w v cs E. destruct (P x w v cs E) as [ann [r [R [<- <-]]]]. apply reads_accepted in R. destruct R as [cs' [R _]]. eapply typed; [exact Ok|exact R].
Qed.
Lemma http_typed read : parses_http read -> typed_reader nested_ty read.
Proof.
  intros [nst [again [P1 P2]]]. eapply parses_typed; [|exact P2]. intros p ts vs. apply nested_ok. eapply parses_typed; [|exact P1]. apply any_ok.
Qed.

Definition shape_of (name : str) : option shape :=
  match find (fun p => str_eqb (s (fst p)) name) value_shapes with Some p => Some (snd p) | None => None end.
Definition header_checked (i : header_info) : bool :=
  match hk_syntax i with
  | None => true
  | Some x => match shape_of (hk_key i) with Some sh => forallb (inside sh) (infer nested_ty rec_ty x) | None => false end
  end.
Lemma headers_checked : forallb header_checked header_table = true.
Proof. vm_compute. reflexivity. Qed.

(** The value of a header that is parsed has the shape given for that header,
    and a shape is given for every header that is parsed. *)
Theorem C64_values : forall i x, In i header_table -> hk_syntax i = Some x ->
  exists name sh, In (name, sh) value_shapes /\ hk_key i = s name /\
  forall read w v cs, parses_http read -> read x w = Some (v, cs) -> fits sh v.
Proof.
  intros i x I X. pose proof (proj1 (forallb_forall _ _) headers_checked i I) as C. unfold header_checked in C. rewrite X in C.
  unfold shape_of in C. destruct (find _ value_shapes) as [[name sh]|] eqn:F; [|discriminate C]. apply find_some in F. destruct F as [F1 F2]. cbn [fst snd] in *. apply str_eqb_eq in F2.
  exists name, sh. split; [exact F1|]. split; [now symmetry|]. intros read w v cs P R. pose proof (http_typed P R) as H. apply hasu_iff in H. destruct H as [t [It Ht]].
  eapply inside_ok; [|exact Ht]. exact (proj1 (forallb_forall _ _) C t It).
Qed.
Print Assumptions C64_values.

(** ** No exceptions *)

(** An exception somewhere in the making of a value. *)
Inductive crashed : val -> Prop :=
| cr_here : crashed VBad
| cr_list l v : In v l -> crashed v -> crashed (VList l)
| cr_tuple l v : In v l -> crashed v -> crashed (VTuple l)
| cr_obj c l v : In v l -> crashed v -> crashed (VObj c l).

Fixpoint calm (x : shape) : bool :=
  match x with
  | Crash => false
  | OneOf l | Tuple l | Make _ l => forallb calm l
  | Many y | Many1 y => calm y
  | _ => true
  end.
Lemma calm_ok x : forall v, calm x = true -> fits x v -> ~ crashed v.
Proof.
  assert (G : forall l vs, Forall (fun y => forall v, calm y = true -> fits y v -> ~ crashed v) l -> forallb calm l = true -> each (map fits l) vs ->
    forall v, In v vs -> ~ crashed v).
  { intros l vs F. revert vs. induction F as [|y l Hy F IH]; intros vs E H v Iv; destruct vs as [|u vs]; try destruct H; [destruct Iv|].
    cbn [forallb] in E. apply andb_true_iff in E. destruct E as [E1 E2]. destruct Iv as [<-|Iv]; [auto|eapply IH; eauto]. }
  induction x as [x B|l IH|x IH|x IH|l IH|c l IH] using shape_ind'; intros v C H; cbn [calm] in C.
  - destruct x; try discriminate B; try discriminate C; cbn [fits] in H; (first [subst v|destruct H as [t H]; first [subst v|destruct H as [H _]; subst v]]); intro K; inversion K.
  - cbn [fits] in H. clear G. induction IH as [|y l Hy F IHl]; [destruct H|]. cbn [forallb] in C. apply andb_true_iff in C. destruct C as [C1 C2]. destruct H as [H|H]; [auto|]. now apply IHl.
  - destruct H as [l [-> F]]. rewrite Forall_forall in F. intro K. inversion K; subst. eapply IH; eauto.
  - destruct H as [l [-> [_ F]]]. rewrite Forall_forall in F. intro K. inversion K; subst. eapply IH; eauto.
  - destruct H as [vs [-> E]]. intro K. inversion K; subst. eapply G; eauto.
  - destruct H as [vs [-> E]]. intro K. inversion K; subst. eapply G; eauto.
Qed.

Definition calm_but_link (p : string * shape) : bool := String.eqb (fst p) "Link" || calm (snd p).
Lemma all_calm : forallb calm_but_link value_shapes = true.
Proof. vm_compute. reflexivity. Qed.

(** No text of a header other than Link makes the parser raise. *)
Theorem C65_no_exception : forall i x read w v cs, In i header_table -> hk_syntax i = Some x -> hk_key i <> s "Link" ->
  parses_http read -> read x w = Some (v, cs) -> ~ crashed v.
Proof.
  intros i x read w v cs I X N P R. destruct (C64_values I X) as [name [sh [In_ [K H]]]]. eapply calm_ok; [|eapply H; eassumption].
  pose proof (proj1 (forallb_forall _ _) all_calm _ In_) as C. unfold calm_but_link in C. cbn [fst snd] in C. apply orb_true_iff in C. destruct C as [C|C]; [|exact C].
  apply String.eqb_eq in C. subst name. congruence.
Qed.
Print Assumptions C65_no_exception.

(** ** Link *)

(** The parameters of a link: names, and how the value was written. *)
Definition link_params : Type := list (str * option (str * str)).
Definition same_name (a b : str) : Prop := map lower_c a = map lower_c b.
Definition once_only (n : str) : Prop :=
  exists m, In m ["rel"; "media"; "title"; "title*"; "type"]%string /\ same_name n (s m).
(** A parameter after [before] that is left out: it may occur only once, and did. *)
Definition left_out (before : link_params) (n : str) : Prop :=
  once_only n /\ exists p, In p before /\ same_name (fst p) n.
Definition value_before (before : link_params) : Prop :=
  exists b n v c, before = b ++ (n, Some v) :: c /\ ~ left_out b n.
(** A parameter without a value that cannot be processed. *)
Definition stumbles (before : link_params) (n : str) : Prop :=
  ~ left_out before n /\
  ((exists m, In m ["anchor"; "rel"; "rev"; "hreflang"; "type"; "title*"]%string /\ same_name n (s m)) \/
   (same_name n (s "title") /\ ~ value_before before)).

Definition as_value (p : str * option (str * str)) : val :=
  VTuple [VObj (s "CaseInsensitive") [VStr (fst p)];
          match snd p with Some (sym, t) => VTuple [VStr sym; VStr t] | None => VNone end].

Definition is_lower (l : list string) : bool := forallb (fun m => str_eqb (map lower_c (s m)) (s m)) l.
Lemma among l n : is_lower l = true -> (existsb (str_eqb (map lower_c n)) (map s l) = true <-> exists m, In m l /\ same_name n (s m)).
Proof.
  intro L. rewrite existsb_exists. split.
  - intros [y [Iy E]]. apply in_map_iff in Iy. destruct Iy as [m [<- Im]]. apply str_eqb_eq in E. exists m. split; [exact Im|]. unfold same_name. rewrite E.
    symmetry. apply str_eqb_eq. exact (proj1 (forallb_forall _ _) L m Im).
  - intros [m [Im E]]. exists (s m). split; [now apply in_map|]. apply str_eqb_eq. unfold same_name in E. rewrite E. apply str_eqb_eq. exact (proj1 (forallb_forall _ _) L m Im).
Qed.
Lemma once_iff n : existsb (str_eqb (map lower_c n)) names_once = true <-> once_only n.
Proof. apply (@among ["rel"; "media"; "title"; "title*"; "type"]%string). reflexivity. Qed.
Lemma syntax_iff n : link_param_syntax (map lower_c n) <> None <-> exists m, In m ["anchor"; "rel"; "rev"; "hreflang"; "type"; "title*"]%string /\ same_name n (s m).
Proof.
  rewrite <- among by reflexivity. unfold link_param_syntax. cbn [map existsb].
  repeat (destruct (str_eqb (map lower_c n) _); [split; [reflexivity|discriminate]|]). split; [congruence|discriminate].
Qed.
Lemma name_iff n m : is_lower [m] = true -> str_eqb (map lower_c n) (s m) = true <-> same_name n (s m).
Proof.
  intro L. pose proof (@among [m] n L) as A. cbn [map existsb] in A. rewrite orb_false_r in A. rewrite A. split; [intros [m' [[<-|[]] H]]; exact H|intro H; exists m; split; [now left|exact H]].
Qed.

Lemma link_raises read rest : forall before seen pa,
  (forall n, once_only n -> (existsb (str_eqb (map lower_c n)) seen = true <-> exists p, In p before /\ same_name (fst p) n)) ->
  (pa <> None <-> value_before before) ->
  (process_params read seen pa (map as_value rest) = None <-> exists b n c, rest = b ++ (n, None) :: c /\ stumbles (before ++ b) n).
Proof.
  induction rest as [|[n v] rest IH]; intros before seen pa Hs Hp.
  { cbn. split; [discriminate|intros [b [n [c [E _]]]]; destruct b; discriminate]. }
  assert (LO : existsb (str_eqb (map lower_c n)) names_once && existsb (str_eqb (map lower_c n)) seen = true <-> left_out before n).
  { rewrite andb_true_iff, once_iff. unfold left_out. split; intros [A B]; (split; [exact A|]); apply (Hs n A); exact B. }
  assert (Step : (exists b n0 c, (n, v) :: rest = b ++ (n0, None) :: c /\ stumbles (before ++ b) n0) <->
    (v = None /\ stumbles before n) \/ exists b n0 c, rest = b ++ (n0, None) :: c /\ stumbles ((before ++ [(n, v)]) ++ b) n0).
  { split.
    - intros [b [n0 [c [E S]]]]. destruct b as [|x b]; cbn in E.
      + left. rewrite app_nil_r in S. injection E as -> -> ->. auto.
      + right. injection E as <- E. exists b, n0, c. split; [exact E|]. now rewrite <- app_assoc.
    - intros [[-> S]|[b [n0 [c [-> S]]]]].
      + exists [], n, rest. rewrite app_nil_r. auto.
      + exists ((n, v) :: b), n0, c. split; [reflexivity|]. now rewrite <- app_assoc in S. }
  rewrite Step. clear Step.
  assert (Hs' : forall seen', (forall m, once_only m -> (existsb (str_eqb (map lower_c m)) seen' = true <-> existsb (str_eqb (map lower_c m)) seen = true \/ map lower_c n = map lower_c m)) ->
    forall m, once_only m -> (existsb (str_eqb (map lower_c m)) seen' = true <-> exists p, In p (before ++ [(n, v)]) /\ same_name (fst p) m)).
  { intros seen' Q m Om. rewrite (Q m Om), (Hs m Om). split.
    - intros [[p [Ip E]]|E]; [exists p; split; [apply in_app_iff; now left|exact E]|exists (n, v); split; [apply in_app_iff; right; now left|exact E]].
    - intros [p [Ip E]]. apply in_app_iff in Ip. destruct Ip as [Ip|[<-|[]]]; [left; eauto|right; exact E]. }
  assert (VB : value_before (before ++ [(n, v)]) <-> value_before before \/ (v <> None /\ ~ left_out before n)).
  { unfold value_before. split.
    - intros [b [m [x [c [E L]]]]]. destruct c as [|y c _] using rev_ind.
      + right. apply app_inj_tail in E. destruct E as [<- E]. injection E as <- ->. split; [discriminate|exact L].
      + left. change (b ++ (m, Some x) :: c ++ [y]) with (b ++ ((m, Some x) :: c) ++ [y]) in E. rewrite app_assoc in E. apply app_inj_tail in E. destruct E as [-> _]. eauto 6.
    - intros [[b [m [x [c [-> L]]]]]|[N L]].
      + exists b, m, x, (c ++ [(n, v)]). split; [now rewrite <- app_assoc|exact L].
      + destruct v as [x|]; [|congruence]. exists before, n, x, []. auto. }
  destruct (existsb (str_eqb (map lower_c n)) names_once && existsb (str_eqb (map lower_c n)) seen) eqn:B.
  - assert (L : left_out before n) by now apply LO.
    cbn [map as_value fst snd process_params]. rewrite B.
    assert (R : process_params read seen pa (map as_value rest) = None <-> exists b n0 c, rest = b ++ (n0, None) :: c /\ stumbles ((before ++ [(n, v)]) ++ b) n0).
    { apply IH; [apply Hs'|rewrite VB, Hp; tauto]. intros m Om. split; [now left|]. intros [H|E]; [exact H|]. destruct L as [_ Lx]. apply (Hs m Om). destruct Lx as [p [Ip E2]]. exists p. split; [exact Ip|]. unfold same_name in *. congruence. }
    rewrite <- R. destruct (process_params read seen pa (map as_value rest)) as [[r cs]|].
    + split; [discriminate|]. intros [[_ [NL _]]|H]; [tauto|discriminate H].
    + split; [intros _; now right|reflexivity].
  - assert (NL : ~ left_out before n) by (intro H; apply LO in H; congruence).
    cbn [map as_value fst snd process_params]. rewrite B. set (seen' := if existsb (str_eqb (map lower_c n)) names_once then map lower_c n :: seen else seen).
    assert (Q : forall m, once_only m -> (existsb (str_eqb (map lower_c m)) seen' = true <-> existsb (str_eqb (map lower_c m)) seen = true \/ map lower_c n = map lower_c m)).
    { intros m Om. unfold seen'. destruct (existsb (str_eqb (map lower_c n)) names_once) eqn:O.
      - cbn [existsb]. rewrite orb_true_iff, str_eqb_eq. split; intros [H|H]; auto.
      - split; [now left|]. intros [H|H]; [exact H|]. exfalso. apply once_iff in Om. rewrite <- H in Om. congruence. }
    destruct v as [[sym t]|].
    + (* with a value *)
      assert (R : process_params read seen' (Some sym) (map as_value rest) = None <-> exists b n0 c, rest = b ++ (n0, None) :: c /\ stumbles ((before ++ [(n, Some (sym, t))]) ++ b) n0).
      { apply IH; [now apply Hs'|]. rewrite VB. split; [intros _; right; split; [discriminate|exact NL]|discriminate]. }
      rewrite <- R. destruct (if _ || _ then Some sym else Some []) as [p|] eqn:A; [|destruct (_ || _) in A; discriminate].
      destruct (link_param_syntax (map lower_c n)) as [x|].
      * destruct (parse_again read x t _ _) as [v3 c3]. destruct (process_params read seen' (Some sym) (map as_value rest)) as [[r cs]|]; (split; [intro K; try discriminate K; now right|intros [[K _]|K]; try discriminate K; reflexivity]).
      * destruct (process_params read seen' (Some sym) (map as_value rest)) as [[r cs]|]; (split; [intro K; try discriminate K; now right|intros [[K _]|K]; try discriminate K; reflexivity]).
    + (* without a value *)
      assert (R : process_params read seen' pa (map as_value rest) = None <-> exists b n0 c, rest = b ++ (n0, None) :: c /\ stumbles ((before ++ [(n, None)]) ++ b) n0).
      { apply IH; [now apply Hs'|]. rewrite VB, Hp. intuition congruence. }
      rewrite <- R. unfold stumbles. rewrite <- syntax_iff, <- Hp, <- (@name_iff n "title") by reflexivity.
      destruct (link_param_syntax (map lower_c n)) as [x|] eqn:X.
      * assert (Y : forall o : option str, match o with Some _ => @None (list val * list vcomplaint) | None => None end = None) by (intros [|]; reflexivity).
        rewrite Y. split; [intros _; left; split; [reflexivity|]; split; [exact NL|left; discriminate]|reflexivity].
      * assert (H : str_eqb (map lower_c n) (s "hreflang") = false).
        { destruct (str_eqb (map lower_c n) (s "hreflang")) eqn:H; [|reflexivity]. apply str_eqb_eq in H. rewrite H in X. vm_compute in X. discriminate X. }
        rewrite H, orb_false_r. destruct (str_eqb (map lower_c n) (s "title")) eqn:T.
        -- destruct pa as [p|].
           ++ destruct (process_params read seen' (Some p) (map as_value rest)) as [[r cs]|]; (split; [intro K; try discriminate K; now right|intros [[_ [_ [K|[_ K]]]]|K]; try congruence; exfalso; apply K; discriminate]).
           ++ split; [intros _; left; split; [reflexivity|]; split; [exact NL|right; split; [reflexivity|]]; congruence|reflexivity].
        -- destruct (process_params read seen' pa (map as_value rest)) as [[r cs]|]; (split; [intro K; try discriminate K; now right|intros [[_ [_ [K|[K _]]]]|K]; congruence]).
Qed.

(** Exactly those parameters make a Link header crash the check. *)
Theorem C65_link : forall again ps,
  nested again PProcessParams [VList (map as_value ps)] = (VBad, []) <->
  exists before n after, ps = before ++ (n, None) :: after /\ stumbles before n.
Proof.
  intros again ps. rewrite <- (@link_raises again ps [] [] None).
  - cbn [nested]. destruct (process_params again [] None (map as_value ps)) as [[r cs]|]; split; intro H; try reflexivity; discriminate H.
  - intros n _. split; [discriminate|intros [p [[] _]]].
  - split; [congruence|]. intros [b [n [v [c [E _]]]]]. destruct b; discriminate E.
Qed.
Print Assumptions C65_link.

(** ** Examples *)

(** The parser with a bound on its steps. *)
Definition run_parser (n : nat) (nst : pyf -> list val -> val * list vcomplaint) (x : symbol) (w : str) : option (val * list vcomplaint) :=
  match @inner_parse HG (@presult val vcomplaint) p_leaf (@p_act rec_rules (pyfun nst) (fun _ => false)) p_rep n w (as_nonterminal x) with
  | Done (Accepted r) => Some (pr_node r, pr_complaints r)
  | _ => None
  end.
Lemma run_parses n nst : parses nst (run_parser n nst).
Proof.
  intros x w v cs E. unfold run_parser in E. match type of E with match ?q with _ => _ end = _ => destruct q as [[r|e]| |] eqn:Q end; try discriminate E. injection E as <- <-.
  exists (fun _ => false), r. split; [exists n; exact Q|auto].
Qed.
Definition run_http (n : nat) : symbol -> str -> option (val * list vcomplaint) :=
  run_parser n (nested (run_parser n (fun _ _ => (VBad, [])))).
Lemma run_http_parses n : parses_http (run_http n).
Proof. eexists _, _. split; apply run_parses. Qed.

Example C64_example : exists v, parses_http (run_http 3000) /\
  run_http 3000 Content_Type (s "text/html; charset=utf-8") = Some (v, []) /\
  v = VObj (s "Parametrized") [VObj (s "MediaType") [VStr (s "text/html")];
        VObj (s "MultiDict") [VList [VTuple [VObj (s "CaseInsensitive") [VStr (s "charset")]; VStr (s "utf-8")]]]].
Proof. eexists. split; [apply run_http_parses|]. split; [vm_compute; reflexivity|reflexivity]. Qed.

Example C65_link_example : stumbles [(s "title", Some (s "token", s "x"))] (s "Rel") /\
  ~ stumbles [(s "rel", Some (s "token", s "next"))] (s "title").
Proof.
  assert (D : forall x y, same_name x y -> map lower_c x = map lower_c y) by (intros; assumption). split.
  - split; [|left; exists "rel"%string; split; [cbn; tauto|vm_compute; reflexivity]].
    intros [_ [p [[<-|[]] E]]]. apply D in E. vm_compute in E. discriminate E.
  - intros [_ [[m [I E]]|[_ V]]].
    + cbn [In] in I. repeat (destruct I as [<-|I]; [apply D in E; vm_compute in E; discriminate E|]). destruct I.
    + apply V. exists [], (s "rel"), (s "token", s "next"), []. split; [reflexivity|]. intros [_ [p [[] _]]].
Qed.
