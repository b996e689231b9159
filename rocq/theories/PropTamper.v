(** Property C52: a message that verifies is the message that was signed. *)

From Coq Require Import String List Permutation.
From Verif Require Import Base Utf8 Canon BodyHash Header Domain Signature KeyRecord Crypto TagList Format Sign Verify
  SpecText SpecCanon SpecHash SpecHeader SpecTag SpecDomain SpecSig SpecRecord SpecFormat SpecSign SpecOutput SpecVerify SpecEnd
  VerifyFacts EndProofs TamperText TamperProofs Lib Sample PropDomain PropSign PropOutput PropVerify PropEnd.
Import ListNotations.
Open Scope N_scope.

(** When a signature verifies, then a key published for its domain and selector
    confirms the digest.  If this digest was once handed to a signer, then the
    message has the same content as the message signed then: the same values of
    tags (except b=), the same signed header fields, the same covered part of the
    body, in canonical form; or else we have before us two different texts
    with the same hash. *)
Theorem C52_same_digest : forall E w headers config chunks answer rs i name value r,
  idna_ok (env_idna E) -> crypto_nonempty (env_crypto E) ->
  evaluation E w headers config chunks answer rs -> result_for config headers rs i name value r ->
  vr_status r = Success ->
  exists sig s p key, vr_signature r = Some sig /\ value = as_bytes s
    /\ lookup_pair E sig p /\ published_key E answer p key
    /\ verifies E key (alg_hash (s_algorithm sig)) (signed_digest E headers sig name s) (s_signature_data sig)
    /\ forall g, was_signed E g -> alg_hash (r_algorithm E (sg_request E g)) = alg_hash (s_algorithm sig) ->
         digest_of E g = signed_digest E headers sig name s ->
         same_content E headers sig (concat chunks) g \/ collision_with E headers sig name s (concat chunks) g.
Proof. exact success_digest. Qed.
Print Assumptions C52_same_digest.

(** Hence, if keys published for its domain and selector confirm nothing but what
    was signed in [signings], the message is one of these. *)
Theorem C52_genuine : forall E w headers config chunks answer rs i name value r signings,
  idna_ok (env_idna E) -> crypto_nonempty (env_crypto E) ->
  evaluation E w headers config chunks answer rs -> result_for config headers rs i name value r ->
  vr_status r = Success ->
  (forall sig p key, vr_signature r = Some sig -> lookup_pair E sig p -> published_key E answer p key ->
     genuine E signings key) ->
  exists sig s g, vr_signature r = Some sig /\ value = as_bytes s /\ signings g /\ was_signed E g
    /\ (same_content E headers sig (concat chunks) g \/ collision_with E headers sig name s (concat chunks) g).
Proof. exact success_genuine. Qed.
Print Assumptions C52_genuine.

(** The tags of a signature are determined by the text that is signed, even when
    whitespace in it is disregarded. *)
Theorem C52_tags : forall pre idna s1 s2 sig1 sig2, idna_ok idna ->
  sig_from_str pre idna s1 = Val (Ok sig1) -> sig_from_str pre idna s2 = Val (Ok sig2) ->
  squeeze (make_original_dkim_sig s1) = squeeze (make_original_dkim_sig s2) ->
  same_tags_of sig1 sig2.
Proof. exact same_signature. Qed.
Print Assumptions C52_tags.

(** The text that is hashed determines the canonical fields that went into it. *)
Theorem C52_fields : forall E h1 h2 sig1 sig2 n1 n2 v1 v2, idna_ok (env_idna E) ->
  header_fields h1 -> header_fields h2 -> field_name n1 -> field_name n2 -> Forall is_scalar v1 -> Forall is_scalar v2 ->
  sig_from_str (env_pre E) (env_idna E) v1 = Val (Ok sig1) -> sig_from_str (env_pre E) (env_idna E) v2 = Val (Ok sig2) ->
  hashed_header h1 sig1 n1 v1 = hashed_header h2 sig2 n2 v2 ->
  same_tags_of sig1 sig2 /\ covered_fields h1 sig1 = covered_fields h2 sig2 /\ same_name n1 n2.
Proof. exact same_hashed. Qed.
Print Assumptions C52_fields.

(** A key that confirms a single digest, which was signed once. *)
Definition single_crypto (digest : list byte) : Crypto :=
  let sized n k d := firstn n (toy_sign k d ++ repeat 170 n) in
  mkCrypto toy_hash N N N N
    (fun _ => 40%nat)
    (fun _ k d => if k =? 0 then None else Some (sized 40%nat k d))
    (sized 64%nat)
    (fun data => match data with 1 :: k :: _ => Some k | _ => None end)
    (fun data => match data with 2 :: k :: _ => Some k | _ => None end)
    toy_read toy_read
    (fun k => 32 * k)
    (fun _ a d _ => match a with Sha256 => leqb d digest | Sha1 => false end)
    (fun _ _ _ => false).
Definition single_with (digest : list byte) : Env := mkEnv false u64_max ascii_idna (single_crypto digest).
Definition single_request (digest : list byte) : SignRequest (single_with digest) :=
  mkRequest (single_with digest) (SkRsa (C := single_crypto digest) 7) RsaSha256 (mkCanon Relaxed Relaxed) (lit "example.com") Auto
    None NoLimit (lit "a-very.long-selector.name") TsNow None false [] default_format.
Definition single_output (digest : list byte) : SigningOutput :=
  match sign_message (single_with digest) (fun l => l) sample_headers [single_request digest] output_chunks (fun _ => 1000) with
  | Val (Ok [Ok o]) => o
  | _ => mkOutput [] [] (mkSig RsaSha256 [] [] (mkCanon Simple Simple) [] [] None None [] None None [] [])
  end.
Definition single_signing (digest : list byte) : Signing (single_with digest) :=
  mkSigning (single_with digest) sample_headers output_chunks (fun _ => 1000) 0 (single_request digest) (single_output digest).
Definition single_digest : list byte := Eval vm_compute in digest_of (single_with []) (single_signing []).
Definition single_env : Env := single_with single_digest.

(** the message as it arrives: another field on top, other whitespace *)
Definition arrived_headers : list HeaderField :=
  signature_field (single_output single_digest) ::
  [(lit "Received", lit " by y"); (lit "Received", lit " by x"); (lit "FROM", lit "me@example.com "); (lit "To", lit " a,    b");
   (lit "Subject", [13; 10; 32] ++ lit "=|;")].
Definition arrived_chunks : list (list byte) := [lit "Hi  "; [13; 10; 13; 10]].
Definition arrived_result : VerificationResult :=
  match verify_message single_env (sample_world 20 good_records) arrived_headers default_config arrived_chunks with
  | Val (Some [r]) => r
  | _ => mkVResult (Failure VTimeout) 0 None None
  end.

Lemma single_typed : crypto_typed single_env.
Proof. exact sized_typed. Qed.

Lemma single_nonempty : crypto_nonempty (env_crypto single_env).
Proof. exact sized_nonempty. Qed.

Lemma single_signed : was_signed single_env (single_signing single_digest).
Proof.
  split; [|split; [|split; [reflexivity|split; constructor]]].
  - apply env_signed; try (vm_compute; auto; fail); [exact single_typed|exact sample_header_fields].
  - constructor; try discriminate.
    + cbn [r_domain r_selector r_identity single_request]. repeat split; try (repeat constructor; cbn; lia). discriminate.
    + intros [].
    + intros t X. injection X as <-. cbn. split; [lia|]. intros Y. destruct (Y eq_refl).
Qed.

Lemma single_genuine : forall key, genuine single_env (fun g => g = single_signing single_digest) key.
Proof.
  intros key a digest data H. exists (single_signing single_digest). split; [reflexivity|]. split; [exact single_signed|].
  destruct key as [k|k]; [|discriminate H]. cbn in H. destruct a; [|discriminate H]. apply leqb_eq in H. subst digest.
  split; [reflexivity|]. vm_compute. reflexivity.
Qed.

Lemma arrived_fields : header_fields arrived_headers.
Proof.
  assert (forall n v, field_name_new n = Some n -> field_body_new v = Some v -> forallb (fun b => b <? 256) v = true ->
    field_name n /\ field_body v /\ Forall is_byte v) as X.
  { intros n v H1 H2 H3. apply HeaderProofs.field_name_new_spec in H1. apply HeaderProofs.field_body_new_spec in H2. split; [tauto|]. split; [tauto|].
    apply Forall_forall. intros b Hb. rewrite forallb_forall in H3. specialize (H3 b Hb). unfold is_byte. lia. }
  repeat (constructor; [apply X; vm_compute; reflexivity|]). constructor.
Qed.

Example C52_example :
  evaluation single_env (sample_world 20 good_records) arrived_headers default_config arrived_chunks
    (fun p => sample_zone good_records (key_name p)) [arrived_result]
  /\ result_for default_config arrived_headers [arrived_result] 0 (so_header_name (single_output single_digest))
       (as_bytes (so_header_value (single_output single_digest))) arrived_result
  /\ vr_status arrived_result = Success
  /\ (forall key, genuine single_env (fun g => g = single_signing single_digest) key)
  /\ verify_message single_env (sample_world 20 good_records) arrived_headers default_config [lit "Ho"; [13; 10]]
     = Val (Some [mkVResult (Failure BodyHashMismatch) 0 (vr_signature arrived_result) (vr_key_record arrived_result)])
  /\ (exists sig, vr_signature arrived_result = Some sig
        /\ covered_fields arrived_headers sig = [lit "subject:=|;"; lit "to:a, b"; lit "from:me@example.com"]
        /\ covered_body sig (concat arrived_chunks) = lit "Hi" ++ [13; 10]).
Proof.
  split; [apply steady_evaluation; [apply sample_world_ok|exact arrived_fields|apply sample_steady|vm_compute; reflexivity]|].
  split; [exists 0%nat; split; vm_compute; reflexivity|]. split; [vm_compute; reflexivity|]. split; [exact single_genuine|].
  split; [vm_compute; reflexivity|]. destruct (vr_signature arrived_result) as [sig|] eqn:H; vm_compute in H; [|discriminate H].
  exists sig. injection H as <-. split; [reflexivity|]. split; vm_compute; reflexivity.
Qed.
