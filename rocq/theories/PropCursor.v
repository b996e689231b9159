(** Property C88: numbers of type usize when a signature is written. *)

From Coq Require Import String List Permutation.
From Verif Require Import Base Utf8 Canon BodyHash Header Domain Signature Crypto TagList Format Sign Usize Cursor
  SpecText SpecCanon SpecHash SpecHeader SpecTag SpecDomain SpecSig SpecFormat SpecSign SpecOutput
  DomainProofs CursorProofs Lib Sample PropDomain PropSign PropOutput.
Import ListNotations.
Open Scope N_scope.

(** the bytes of a text *)
Definition bytes_of (s : str) : N := N.of_nat (length (as_bytes s)).

(** Header name, header value and indentation together can be counted; and signing did
    not fail (otherwise there is no header value). *)
Definition can_be_counted (max : N) (f : OutputFormat) (res : result SigningOutput SigningError) : Prop :=
  match res with
  | Ok o => bytes_of (so_header_name o) + bytes_of (so_header_value o) + bytes_of (of_indentation f) + 2 <= max
  | Err SigningFailure => False
  | Err InsufficientContent | Err SigOverflow => True
  end.

(** No number computed overflows, with checks or without, if body and header field can
    be counted. *)
Theorem C88_counting : forall E checks order headers rs chunks clock o, signature_sizes (env_crypto E) -> crypto_typed E ->
  Forall (request_typed E) rs -> header_fields headers -> (forall l, Permutation (order l) l) ->
  N.of_nat (length (concat chunks)) + 2 <= env_usize_max E ->
  sign_message E order headers rs chunks clock = Val o ->
  (forall results j r res, o = Ok results -> nth_error rs j = Some r -> nth_error results j = Some res ->
     can_be_counted (env_usize_max E) (r_format E r) res) ->
  sign_message_counted E checks order headers rs chunks clock = Val o.
Proof. exact sign_counted. Qed.
Print Assumptions C88_counting.

(** With checks, the result is right if there is one. *)
Theorem C88_checked : forall E order headers rs chunks clock o,
  sign_message_counted E true order headers rs chunks clock = Val o -> sign_message E order headers rs chunks clock = Val o.
Proof. exact counted_checked. Qed.
Print Assumptions C88_checked.

(** *** Numbers up to [max] *)
Definition count_env (max : N) : Env := mkEnv false max ascii_idna sized_crypto.
Definition count_request (max : N) : SignRequest (count_env max) :=
  mkRequest (count_env max) (SkRsa (C := sized_crypto) 7) RsaSha256 (mkCanon Relaxed Relaxed) (lit "Example.com") Auto
    (Some (mkIdentity (Some (lit "me")) (lit "x.example.com"))) NoLimit (lit "sel") TsNow (Some 9) true
    [(lit "foo", lit "bar")] (mkFormat (lit "Dkim-Signature") 70 (lit "  ") (Some (@rev _)) true).
Definition count_sign (max : N) :=
  sign_message (count_env max) (fun l => l) sample_headers [count_request max] output_chunks (fun _ => 1000).
Definition count_sign_u (max : N) (checks : bool) :=
  sign_message_counted (count_env max) checks (fun l => l) sample_headers [count_request max] output_chunks (fun _ => 1000).
Definition header_value (o : outcome (result (list (result SigningOutput SigningError)) RequestError)) : option str :=
  match o with Val (Ok [Ok o]) => Some (so_header_value o) | _ => None end.

Lemma count_typed : forall max, crypto_typed (count_env max).
Proof. intros max. exact sized_typed. Qed.

Lemma count_request_typed : forall max, request_typed (count_env max) (count_request max).
Proof.
  intros max.
  assert (forall s, domain_new ascii_idna s = Val (Some s) -> domain_text ascii_idna s true) as D.
  { intros s H. destruct (domain_new_spec ascii_idna s) as (x & Ex & X). rewrite Ex in H. injection H as ->. apply (X s). reflexivity. }
  assert (forall s, selector_new ascii_idna s = Val (Some s) -> domain_text ascii_idna s false) as S.
  { intros s H. destruct (selector_new_spec ascii_idna s) as (x & Ex & X). rewrite Ex in H. injection H as ->. apply (X s). reflexivity. }
  split; [apply D; vm_compute; reflexivity|]. split; [apply S; vm_compute; reflexivity|]. split; [|split].
  - intros i H. injection H as <-. split; [apply D; vm_compute; reflexivity|]. intros l H. injection H as <-. repeat constructor; cbn; lia.
  - discriminate.
  - intros names. symmetry. apply Permutation_rev.
Qed.

(** the hypotheses hold, and the results are the same; with numbers up to 80 there is a
    panic with checks, and another result without *)
Example C88_example : exists o,
  count_sign 300 = Val (Ok [Ok o]) /\ can_be_counted 300 (r_format (count_env 300) (count_request 300)) (Ok o)
  /\ Forall (request_typed (count_env 300)) [count_request 300] /\ header_fields sample_headers
  /\ crypto_typed (count_env 300) /\ signature_sizes sized_crypto
  /\ (forall checks, count_sign_u 300 checks = Val (Ok [Ok o]))
  /\ header_value (count_sign 80) = Some (so_header_value o)
  /\ count_sign_u 80 true = Panic
  /\ (exists v, header_value (count_sign_u 80 false) = Some v /\ v <> so_header_value o).
Proof.
  eexists. split; [vm_compute; reflexivity|]. split; [vm_compute; discriminate|]. split; [constructor; [apply count_request_typed|constructor]|].
  split; [exact sample_header_fields|]. split; [apply count_typed|]. split; [exact sized_sizes|].
  split; [intros []; vm_compute; reflexivity|]. split; [vm_compute; reflexivity|]. split; [vm_compute; reflexivity|].
  eexists. split; [vm_compute; reflexivity|vm_compute; discriminate].
Qed.
