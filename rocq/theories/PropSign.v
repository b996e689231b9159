(** Properties C33, C38, C39: signing. *)

From Coq Require Import String List Permutation.
From Verif Require Import Base Utf8 Canon BodyHash Header Domain Signature Crypto Format Sign
  SpecText SpecCanon SpecHash SpecHeader SpecTag SpecDomain SpecSig SpecFormat SpecSign
  DomainProofs SignProofs Lib Sample.
Import ListNotations.
Open Scope N_scope.

(** ** A sample *)

Definition sample_headers : list HeaderField :=
  [(lit "Received", lit " by x"); (lit "From", lit " me@example.com"); (lit "To", lit " a," ++ [13; 10; 32] ++ lit "b");
   (lit "Subject", lit " =|;")].
Definition sample_request : SignRequest toy_env :=
  mkRequest toy_env (SkRsa (C := toy_crypto) 7) RsaSha256 (mkCanon Relaxed Relaxed) (lit "example.com") Auto
    (Some (mkIdentity (Some (lit "me")) (lit "x.example.com"))) MessageContent (u "☕") TsNow (Some 9) true
    [(lit "foo", lit "bar baz")] (mkFormat (lit "Dkim-Signature") 30 (lit "  ") None true).
Definition sample_requests : list (SignRequest toy_env) :=
  [sample_request;
   mkRequest toy_env (SkEd25519 (C := toy_crypto) 8) Ed25519Sha256 (mkCanon Simple Simple) (lit "example.com") (Manual [lit "From"; lit "from"])
     None (ExactLen 3) (lit "sel") (TsExact 5) None false [] default_format;
   mkRequest toy_env (SkRsa (C := toy_crypto) 0) RsaSha256 (mkCanon Simple Simple) (lit "example.com") Auto
     None NoLimit (lit "sel") TsNone None false [] default_format;
   mkRequest toy_env (SkRsa (C := toy_crypto) 1) RsaSha256 (mkCanon Simple Simple) (lit "example.com") Auto
     None (ExactLen 99) (lit "sel") TsNone None false [] default_format].

Lemma toy_typed : crypto_typed toy_env.
Proof.
  assert (forall k d, Forall is_byte (toy_sign k d)) as X.
  { intros. unfold toy_sign. apply Forall_forall. intros b H. apply in_map_iff in H as (x & <- & _). unfold is_byte. lia. }
  split; [|split].
  - intros a d. cbn. unfold toy_hash. cbv zeta. repeat constructor; unfold is_byte; lia.
  - intros a k d s. cbn. destruct (k =? 0); [discriminate|]. intros H. injection H as <-. apply X.
  - intros. apply X.
Qed.

Lemma sample_domain_text : forall s, domain_new sample_idna s = Val (Some s) -> domain_text sample_idna s true.
Proof. intros s H. destruct (domain_new_spec sample_idna s) as (r & E & X). rewrite E in H. injection H as ->. apply (X s). reflexivity. Qed.
Lemma sample_selector_text : forall s, selector_new sample_idna s = Val (Some s) -> domain_text sample_idna s false.
Proof. intros s H. destruct (selector_new_spec sample_idna s) as (r & E & X). rewrite E in H. injection H as ->. apply (X s). reflexivity. Qed.

Lemma toy_request_typed : forall r : SignRequest toy_env,
  domain_new sample_idna (r_domain toy_env r) = Val (Some (r_domain toy_env r)) ->
  selector_new sample_idna (r_selector toy_env r) = Val (Some (r_selector toy_env r)) ->
  match r_identity toy_env r with
  | Some i => domain_new sample_idna (id_domain i) = Val (Some (id_domain i))
              /\ forallb is_ascii (unwrap_or (id_local_part i) []) = true
  | None => True
  end ->
  match r_header_selection toy_env r with
  | Manual names => forallb (fun n => is_some (field_name_new n)) names = true
  | Auto => True
  end ->
  of_tag_order (r_format toy_env r) = None -> request_typed toy_env r.
Proof.
  intros r H1 H2 H3 H4 H5. split; [apply sample_domain_text; exact H1|]. split; [apply sample_selector_text; exact H2|].
  split; [|split].
  - intros i Hi. rewrite Hi in H3. destruct H3 as [X Y]. split; [apply sample_domain_text; exact X|].
    intros l Hl. rewrite Hl in Y. cbn [unwrap_or] in Y. rewrite forallb_forall in Y. apply Forall_forall. intros c Hc.
    specialize (Y c Hc). unfold is_ascii in Y. unfold is_scalar. lia.
  - intros names Hn. rewrite Hn in H4. rewrite forallb_forall in H4. apply Forall_forall. intros n Hi.
    specialize (H4 n Hi). destruct (field_name_new n) eqn:E; [|discriminate]. apply HeaderProofs.field_name_new_spec in E. tauto.
  - rewrite H5. exact I.
Qed.

Lemma sample_typed : Forall (request_typed toy_env) sample_requests.
Proof.
  repeat (apply Forall_cons; [apply toy_request_typed; vm_compute; auto|]). constructor.
Qed.

Lemma sample_header_fields : header_fields sample_headers.
Proof.
  repeat constructor; try discriminate; try (cbn; lia).
  - exists (lit " by x"), []. repeat constructor; cbn; try lia.
  - exists (lit " me@example.com"), []. repeat constructor; cbn; try lia.
  - exists (lit " a,"), [lit " b"]. repeat constructor; cbn; try lia.
    + exists 32, [98]. auto. + exists 98. cbn. lia.
  - exists (lit " =|;"), []. repeat constructor; cbn; try lia.
Qed.

(** ** C33 *)

(** Every run: either the first problem in the documented order is reported, or
    there is one result per request, each exactly as specified. *)
Theorem C33_sign_exact : forall E order headers rs chunks clock, crypto_typed E ->
  Forall (request_typed E) rs -> header_fields headers -> (forall l, Permutation (order l) l) ->
  exists e, first_of (signing_checks E headers rs) e /\
  match e with
  | Some e => sign_message E order headers rs chunks clock = Val (Err e)
  | None => exists results,
      sign_message E order headers rs chunks clock = Val (Ok results)
      /\ length results = length rs
      /\ forall j r res, nth_error rs j = Some r -> nth_error results j = Some res ->
           signing_result E (clock j) r headers (concat chunks) res
  end.
Proof. exact signing_spec. Qed.
Print Assumptions C33_sign_exact.

Theorem C33_first_problem_unique : forall E headers rs e1 e2,
  first_of (signing_checks E headers rs) e1 -> first_of (signing_checks E headers rs) e2 -> e1 = e2.
Proof. intros. eapply first_of_det; eauto. Qed.
Print Assumptions C33_first_problem_unique.

Theorem C33_accepted_iff : forall E order headers rs, Forall (request_typed E) rs ->
  ((exists s, prepare_signing E order headers rs = Val (Ok s)) <->
   (exists f, In f headers /\ same_name (fst f) (lit "From"))
   /\ (1 <= length rs <= 10)%nat /\ Forall (fun r => first_of (request_checks E r) None) rs).
Proof.
  intros E order headers rs T. rewrite <- checks_none.
  destruct (prepare_spec E order headers rs T) as (e & H & Ep). rewrite Ep. split.
  - intros (s & X). destruct e; [discriminate|exact H].
  - intros X. rewrite (first_of_det _ _ _ _ H X). eauto.
Qed.
Print Assumptions C33_accepted_iff.

Example C33_example :
  crypto_typed toy_env /\ Forall (request_typed toy_env) sample_requests /\ header_fields sample_headers
  /\ (let! r := sign_message toy_env (@rev _) sample_headers sample_requests [lit "Hi"; [13; 10]] (fun _ => 1000) in
      Val match r with
          | Ok l => Ok (map (fun r => match r with Ok o => Ok (so_header_value o) | Err e => Err e end) l)
          | Err e => Err e
          end)
   = Val (Ok [Ok (crlf_lines (u " v=1;
  d=example.com;
  i=me@x.example.com;
  s=xn--53h; a=rsa-sha256;
  c=relaxed/relaxed; l=4;
  t=1000; x=1009; h=Subject:
  To:From; bh=TkzB0g==; b=B8tc
  6CU=; z=From:=20me@example.c
  om|To:=20a,=0D=0A=20b|
  Subject:=20=3D=7C=3B;
  foo=bar baz"));
          Ok (crlf_lines (u " v=1; d=example.com; s=sel; a=ed25519-sha256; l=3; t=5; h=From:
	from; bh=AUz/wg==; b=CMLwZAw="));
          Err SigningFailure; Err InsufficientContent])
  /\ prepare_signing toy_env (fun x => x) sample_headers [] = Val (Err EmptyRequests)
  /\ prepare_signing toy_env (fun x => x) (skipn 2 sample_headers) [] = Val (Err MissingFromHeader)
  /\ prepare_signing toy_env (fun x => x) sample_headers (repeat sample_request 11) = Val (Err TooManyRequests)
  /\ (exists s, prepare_signing toy_env (fun x => x) sample_headers (repeat sample_request 10) = Val (Ok s)).
Proof.
  split; [exact toy_typed|]. split; [exact sample_typed|]. split; [exact sample_header_fields|].
  split; [vm_compute; reflexivity|]. split; [vm_compute; reflexivity|]. split; [vm_compute; reflexivity|].
  split; [vm_compute; reflexivity|]. eexists. vm_compute. reflexivity.
Qed.

(** C12 for the signer: once it has reported Done, further chunks change nothing. *)
Theorem C12_signer_done_is_final : forall E order headers rs s chunks s1 c s2 more,
  prepare_signing E order headers rs = Val (Ok s) ->
  signer_chunks E s chunks = Val s1 -> signer_chunk E s1 c = Val (Done, s2) ->
  signer_chunks E s2 more = Val s2.
Proof. exact signer_done. Qed.
Print Assumptions C12_signer_done_is_final.

Example C12_signer_example :
  exists s s1 s2, prepare_signing toy_env (fun x => x) sample_headers (skipn 1 (firstn 2 sample_requests)) = Val (Ok s)
    /\ signer_chunks toy_env s [[97; 98]] = Val s1 /\ signer_chunk toy_env s1 [99; 100] = Val (Done, s2).
Proof. do 3 eexists. repeat split; vm_compute; reflexivity. Qed.

(** ** C38 *)
Theorem C38_auto_selection : forall E order headers rs chunks clock results j r o,
  crypto_typed E -> Forall (request_typed E) rs -> header_fields headers -> (forall l, Permutation (order l) l) ->
  sign_message E order headers rs chunks clock = Val (Ok results) ->
  nth_error rs j = Some r -> nth_error results j = Some (Ok o) -> r_header_selection E r = Auto ->
  let names := s_signed_headers (so_signature o) in
  exists fs,
    selected (fun f => In (lower (fst f)) signed_by_default) headers fs
    /\ names = rev (map fst fs)
    /\ contributed headers [] names = rev fs                    (* every instance is hashed *)
    /\ forall n, In (lower n) signed_by_default ->
         occurrences n names = length (filter (fun f => same_nameb (fst f) n) headers).
Proof.
  intros E order headers rs chunks clock results j r o HC T Hh Ho H Hr Hres Ha.
  destruct (sign_results E order headers rs chunks clock results HC T Hh Ho H) as (_ & _ & _ & R).
  destruct (R j r _ Hr Hres) as (_ & _ & S).
  inversion S as [| | |v pre post sig n b64 Hu _ _ _ _ _ X]. subst o. cbn [so_signature s_signed_headers].
  destruct Hu as (hashed & l & names & copied & _ & Hn & _ & ->). cbn [u_signed_headers].
  inversion Hn as [fs _ Hs X1|ns Hm X1]; [|congruence]. exists fs. split; [exact Hs|]. split; [reflexivity|].
  apply auto_spec. exact Hs.
Qed.
Print Assumptions C38_auto_selection.

Example C38_example :
  (let! r := sign_message toy_env (fun x => x) sample_headers [sample_request] [] (fun _ => 1000) in
   Val match r with
       | Ok l => map (fun r => match r with Ok o => s_signed_headers (so_signature o) | Err e => [] end) l
       | Err e => []
       end) = Val [[lit "Subject"; lit "To"; lit "From"]].
Proof. vm_compute. reflexivity. Qed.

(** ** C39 *)
Theorem C39_body_length : forall E order headers rs chunks clock results j r res,
  crypto_typed E -> Forall (request_typed E) rs -> header_fields headers -> (forall l, Permutation (order l) l) ->
  sign_message E order headers rs chunks clock = Val (Ok results) ->
  nth_error rs j = Some r -> nth_error results j = Some res ->
  let cb := canonical_body (c_body (r_canonicalization E r)) (concat chunks) in
  (res = Err InsufficientContent <->
     exists n, r_body_length E r = ExactLen n /\ N.of_nat (length cb) < n)
  /\ forall o, res = Ok o ->
       s_body_length (so_signature o) =
         match r_body_length E r with
         | NoLimit => None
         | MessageContent => Some (N.of_nat (length cb))
         | ExactLen n => Some n
         end
       /\ s_body_hash (so_signature o) =
         hash_fn (env_crypto E) (alg_hash (r_algorithm E r))
           match r_body_length E r with ExactLen n => firstn (N.to_nat n) cb | _ => cb end.
Proof.
  intros E order headers rs chunks clock results j r res HC T Hh Ho H Hr Hres cb.
  destruct (sign_results E order headers rs chunks clock results HC T Hh Ho H) as (_ & _ & _ & R).
  destruct (R j r _ Hr Hres) as (_ & _ & S).
  assert (forall hashed l, signed_body E r (concat chunks) hashed l ->
    l = match r_body_length E r with NoLimit => None | MessageContent => Some (N.of_nat (length cb)) | ExactLen n => Some n end
    /\ hashed = match r_body_length E r with ExactLen n => firstn (N.to_nat n) cb | _ => cb end
    /\ ~ (exists n, r_body_length E r = ExactLen n /\ N.of_nat (length cb) < n)) as X.
  { intros hashed l B. inversion B as [B1 X1 X2|cb' B1 X1 X2|n a b B1 B2 B3 X1 X2]; subst l; fold cb in X1; rewrite B1.
    - split; [reflexivity|]. split; [auto|]. intros (n & Y & _). discriminate.
    - split; [reflexivity|]. split; [auto|]. intros (n & Y & _). discriminate.
    - fold cb in B3. rewrite B3. split; [reflexivity|]. subst hashed. split.
      + assert (N.to_nat n = length a) as -> by lia. rewrite firstn_app, Nat.sub_diag, firstn_all. cbn. rewrite app_nil_r. reflexivity.
      + intros (m & Y & Z). injection Y as <-. rewrite app_length in Z. lia. }
  assert (forall v, to_sign E (clock j) r headers (concat chunks) v ->
    ~ (exists n, r_body_length E r = ExactLen n /\ N.of_nat (length cb) < n)) as Y.
  { intros v (hashed & l & names & copied & B & _). apply X in B. tauto. }
  inversion S as [n S1 S2 Z|hashed l S1 S2 Z|v pre post S1 S2 S3 S4 Z|v pre post sig n b64 S1 S2 S3 S4 S5 S6 Z]; subst res.
  - split; [|intros; discriminate]. split; [|reflexivity]. intros _. eauto.
  - split; [|intros; discriminate]. split; [discriminate|]. intros N. exfalso. apply X in S1. tauto.
  - split; [|intros; discriminate]. split; [discriminate|]. intros N. exfalso. exact (Y v S1 N).
  - split. { split; [discriminate|]. intros N. exfalso. exact (Y v S1 N). }
    intros o Eo. injection Eo as <-. cbn [so_signature s_body_length s_body_hash].
    destruct S1 as (hashed & l & names & copied & B & _ & _ & ->). cbn [u_body_length u_body_hash].
    apply X in B as (-> & -> & _). split; reflexivity.
Qed.
Print Assumptions C39_body_length.

Example C39_example :
  (let! r := sign_message toy_env (fun x => x) sample_headers sample_requests [[97]; [32; 13; 10]] (fun _ => 1000) in
   Val match r with
       | Ok l => map (fun r => match r with Ok o => Ok (s_body_length (so_signature o)) | Err e => Err e end) l
       | Err e => []
       end) = Val [Ok (Some 3); Ok (Some 3); Err SigningFailure; Err InsufficientContent].
Proof. vm_compute. reflexivity. Qed.
