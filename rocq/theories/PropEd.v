(** Property C78: Ed25519 in place of the parameters for cryptography: the functions meet
    the specification, and signing and verifying need no assumption about them. *)

From Coq Require Import String List Permutation.
From Verif Require Import Base Utf8 Canon BodyHash Header Domain Signature KeyRecord Crypto Format Sign Verify Pem Programs
  SpecText SpecCanon SpecHash SpecHeader SpecTag SpecDomain SpecSig SpecRecord SpecFormat SpecSign SpecOutput SpecVerify SpecEnd SpecCause SpecPrograms SpecRsa SpecEd
  Concrete ConcreteProofs RsaProofs EdSignProofs EdSpecProofs EdKeyProofs EdEndProofs CauseProofs Lib Sample SampleRsa SampleEd PropDomain PropSign PropOutput PropVerify PropPrograms.
Import ListNotations.
Open Scope N_scope.

(** What signing produces is the signature of RFC 8032. *)
Theorem C78_sign : forall key msg sig, ed_sign real_crypto key msg = sig <-> ed_signature sha512 key msg sig.
Proof. intros key msg sig. rewrite signature_spec. cbn [ed_sign real_crypto]. split; intros H; symmetry; exact H. Qed.
Print Assumptions C78_sign.

(** A public key can be read when it encodes a point of the curve, or does so but for
    reducing y and the sign of x = 0 ... *)
Theorem C78_key : forall bs, Forall is_byte bs ->
  ((exists k, ed_from_raw real_crypto bs = Some k) <-> exists a, ed_reading a bs).
Proof. exact key_readable. Qed.
Print Assumptions C78_key.

Theorem C78_key_regular : forall a bs, ed_encoding a bs -> ed_reading a bs.
Proof. exact encoding_reading. Qed.
Print Assumptions C78_key_regular.

(** ... the latter are 26 byte strings. *)
Theorem C78_key_irregular : forall bs, Forall is_byte bs ->
  ((exists k, ed_from_raw real_crypto bs = Some k) /\ ~ (exists a, ed_encoding a bs) <-> ed_irregular bs).
Proof. exact irregular_keys. Qed.
Print Assumptions C78_key_irregular.

(** Exactly the signatures valid according to RFC 8032 are confirmed. *)
Theorem C78_verify : forall public k msg sig, Forall is_byte public -> Forall is_byte sig -> ed_from_raw real_crypto public = Some k ->
  (ed_verify real_crypto k msg sig = true <-> ed_valid sha512 public msg sig).
Proof. exact valid_spec. Qed.
Print Assumptions C78_verify.

(** Every private key has a public key, which can be read, and confirms every
    signature made with the private key. *)
Theorem C78_confirms : forall key, exists public k, ed_public_key sha512 key public /\ ed_from_raw real_crypto public = Some k
  /\ (forall other, ed_public_key sha512 key other -> other = public)
  /\ forall msg, ed_verify real_crypto k msg (ed_sign real_crypto key msg) = true.
Proof.
  intros key. destruct (public_readable key) as (q & K & _). exists (ed_public key), (ed_public key, q).
  split; [apply public_spec; reflexivity|]. split; [exact K|]. split; [intros other H; apply public_spec; exact H|].
  intros msg. apply ed25519_confirms. exact K.
Qed.
Print Assumptions C78_confirms.

(** A message with a From field is signed, with the options of [SignRequest::new] and
    any Ed25519 key, and verified within the time of validity, the public key being
    published. *)
Theorem C78_library : forall pre m idna order w key public dom sel headers chunks chunks' clock zone,
  let E := real_env pre m idna in
  idna_ok idna -> ed_public_key sha512 key public ->
  domain_text idna dom true -> domain_text idna sel false -> Forall is_scalar dom -> Forall is_scalar sel ->
  (forall l, Permutation (order l) l) -> header_fields headers -> (exists f, In f headers /\ same_name (fst f) (lit "From")) ->
  world_ok w -> steady (w_resolver w) zone -> ed_published E zone dom sel public ->
  concat chunks' = concat chunks ->
  let signed := clock 0%nat in let now := w_clock w 0 in
  signed < 2^64 - 1 -> signed <= now + 300 -> now < signed + 432000 + 300 -> now < 2^64 - 1 ->
  let sk := SkEd25519 (C := real_crypto) key in
  exists o, sign_message E order headers [request_new E dom sel Ed25519Sha256 sk] chunks clock = Val (Ok [Ok o])
    /\ exists res rest, verify_message E w (signature_field o :: headers) default_config chunks' = Val (Some (res :: rest))
         /\ vr_index res = 0%nat /\ vr_status res = Success.
Proof. exact ed_end_to_end. Qed.
Print Assumptions C78_library.

(** The same with the example programs: from the text of the key file and of the
    message to the output of the verification program. *)
Theorem C78_programs : forall pre m idna order clock files w zone show program program' key_file dom sel stdin headers body pem bs key public,
  let E := real_env pre m idna in
  idna_ok idna -> length key = 32%nat -> Forall is_byte key -> ed_public_key sha512 key public ->
  ed_private_info_der key bs -> pem_text (lit "PRIVATE KEY") bs pem -> files key_file = Some (as_bytes pem) ->
  domain_text idna dom true -> domain_text idna sel false -> Forall is_scalar dom -> Forall is_scalar sel ->
  message_input stdin headers body -> (exists f, In f headers /\ same_name (fst f) (lit "From")) ->
  (forall l, Permutation (order l) l) -> clock 0%nat < 2^64 ->
  world_ok w -> steady (w_resolver w) zone -> ed_published E zone dom sel public ->
  exists out, dkimsign E real_pem files order clock [program; key_file; dom; sel] stdin = Val (mkExit 0 out [])
    /\ exists r rest t, dkimverify E show w [program'] (as_bytes out ++ stdin) = Val (mkExit 0 t [])
         /\ listing show 1 (r :: rest) t /\ vr_status r = Success.
Proof. exact ed_programs. Qed.
Print Assumptions C78_programs.

Definition ed_env : Env := real_env false (2^64 - 1) ascii_idna.
Definition ed_file (name : str) : option (list byte) := if leqb name (lit "key") then Some (as_bytes ed_sample_pem) else None.

Lemma ed_record_published : forall text k, Forall is_scalar text -> record_from_str false text = Val (Ok k) ->
  k_key_type k = Ed25519 -> In Sha256 (k_hash_algorithms k) -> k_key_data k = ed_sample_public \/ ed_info_der ed_sample_public (k_key_data k) ->
  ed_published ed_env (sample_zone [text]) (lit "Example.com") (lit "a-very.long-selector.name") ed_sample_public.
Proof.
  intros text k S K T H D.
  exists (lit "example.com"), (lit "a-very.long-selector.name"), [Ok (as_bytes text)], (Ok (as_bytes text)), k.
  split; [reflexivity|]. split; [reflexivity|]. split; [reflexivity|]. split; [left; reflexivity|].
  split. { apply record_reads_iff. exists text. split; [constructor; exact S|exact K]. }
  auto.
Qed.

Lemma ed_scalar : Forall is_scalar ed_sample_info_record.
Proof.
  apply Forall_forall. intros c Hc. assert (forallb (fun c => c <? 128) ed_sample_info_record = true) as X by (vm_compute; reflexivity).
  rewrite forallb_forall in X. apply X in Hc. apply N.ltb_lt in Hc. unfold is_scalar. lia.
Qed.

Example C78_example :
  idna_ok ascii_idna /\ length ed_sample_key = 32%nat /\ Forall is_byte ed_sample_key
  /\ ed_public_key sha512 ed_sample_key ed_sample_public
  /\ ed_private_info_der ed_sample_key ed_sample_private_info
  /\ pem_text (lit "PRIVATE KEY") ed_sample_private_info ed_sample_pem
  /\ can_sign ed_env real_pem ed_file (lit "key") (lit "Example.com") (lit "a-very.long-selector.name") sample_message
       (SkEd25519 (C := real_crypto) ed_sample_key) sample_fields sample_content
  /\ ed_published ed_env (sample_zone [ed_sample_record]) (lit "Example.com") (lit "a-very.long-selector.name") ed_sample_public
  /\ ed_published ed_env (sample_zone [ed_sample_info_record]) (lit "Example.com") (lit "a-very.long-selector.name") ed_sample_public
  /\ ~ (exists a, ed_reading a (2 :: repeat 0 31))
  /\ ed_irregular (238 :: repeat 255 30 ++ [127]).

Proof.
  split; [exact ascii_idna_ok|]. split; [apply ed_sample_size|]. split; [apply ed_sample_size|]. split; [exact ed_sample_public_key|].
  split; [exact ed_sample_private_der|]. split; [exact ed_sample_pem_written|]. split.
  { destruct (sample_can_sign sample_message sample_fields sample_content) as (_ & A & B & M & F); [vm_compute; reflexivity| |].
    { exists (lit "From", lit " me@example.com"). split; [right; left; reflexivity|reflexivity]. }
    split; [|auto]. exists ed_sample_pem. split; [reflexivity|].
    split; [apply sample_scalar|].
    exact (ed_pem_key _ _ _ ed_sample_private_der (proj1 ed_sample_size) (proj2 ed_sample_size) ed_sample_pem_written). }
  split.
  { destruct (record_from_str false ed_sample_record) as [[k|]|] eqn:K; [|vm_compute in K; discriminate K..].
    apply (ed_record_published _ k); [apply sample_scalar|exact K|vm_compute in K; injection K as <-; cbn; auto..]. }
  split.
  { destruct (record_from_str false ed_sample_info_record) as [[k|]|] eqn:K; [|vm_compute in K; discriminate K..].
    apply (ed_record_published _ k); [apply ed_scalar|exact K|vm_compute in K; injection K as <-; cbn; auto..].
    right. exact ed_sample_info_der. }
  split; [intros H; apply key_readable in H; [|apply all_bytes; vm_compute; reflexivity]; destruct H as (q & X); vm_compute in X; discriminate X|].
  split; [reflexivity|]. exists (modulus + 1), 0. split; [|left; split; [right; left; reflexivity|reflexivity]].
  assert (modulus + 1 + 2 ^ 255 * 0 = from_le (238 :: repeat 255 30 ++ [127])) as -> by (vm_compute; reflexivity).
  apply from_little. apply all_bytes. vm_compute. reflexivity.
Qed.
