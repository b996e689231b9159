(** Property C93: agreement with verifiers and signers that follow the RFC to the letter. *)

From Coq Require Import String List NArith Permutation.
From Verif Require Import Base Utf8 Canon BodyHash Header Domain Signature KeyRecord Crypto TagList Format Sign Verify Concrete
  SpecText SpecCanon SpecHash SpecHeader SpecTag SpecDomain SpecSig SpecRecord SpecFormat SpecSign SpecOutput SpecVerify SpecEnd SpecDkim SpecInterop
  CanonProofs EndProofs DkimProofs InteropProofs RsaProofs Lib Sample PropDomain PropSign PropOutput PropVerify PropEnd.
Import ListNotations.
Open Scope N_scope.

(** What the signer returns is a signature of the message, as one by any other program:
    in its own canonical form of bodies ... *)
Theorem C93_made : forall E headers chunks clock j r o, idna_ok (env_idna E) -> crypto_nonempty (env_crypto E) ->
  readable_output E headers chunks clock j r o ->
  exists sig, written_signature (env_idna E) (r_format E r) (so_signature o) sig
    /\ signed_by E canonical_body (r_signing_key E r) headers (concat chunks) (so_header_name o) (so_header_value o) sig.
Proof. exact made_signed. Qed.
Print Assumptions C93_made.

(** ... and in that of the RFC, except in the two corner cases. *)
Theorem C93_made_rfc : forall E headers chunks clock j r o, idna_ok (env_idna E) -> crypto_nonempty (env_crypto E) ->
  readable_output E headers chunks clock j r o -> regular_body (c_body (r_canonicalization E r)) (concat chunks) ->
  exists sig, written_signature (env_idna E) (r_format E r) (so_signature o) sig
    /\ signed_by E rfc_body (r_signing_key E r) headers (concat chunks) (so_header_name o) (so_header_value o) sig.
Proof.
  intros E headers chunks clock j r o IO NE RO Re. destruct (made_signed _ _ _ _ _ _ _ IO NE RO) as (sig & Wr & Sg). exists sig. split; [exact Wr|].
  eapply signed_ext; [|exact Sg]. apply rfc_regular. destruct Wr as (_ & _ & _ & -> & _).
  destruct RO as (HO & _). destruct (request_parts _ _ _ _ _ _ _ HO) as (? & ? & _ & _ & _ & _ & _ & -> & _). exact Re.
Qed.
Print Assumptions C93_made_rfc.

(** The message with the signature on top, perhaps among other fields not covered, is
    valid by the RFC exactly if the body is not one of the corner cases, or they make no
    difference to the hash in the signature. *)
Theorem C93_output : forall E config headers extra chunks clock j r o zone now,
  idna_ok (env_idna E) -> crypto_nonempty (env_crypto E) ->
  readable_output E headers chunks clock j r o ->
  header_fields (extra ++ headers) ->
  not_oversigned (s_signed_headers (so_signature o)) headers extra ->
  signature_good E (extra ++ headers) config now (so_signature o) ->
  content_covered E r config (concat chunks) ->
  key_published E r config (fun p => zone (key_name p)) ->
  ((exists sig k, valid_dkim E rfc_body zone config now (extra ++ headers) (concat chunks) (so_header_name o) (as_bytes (so_header_value o)) sig k)
   <-> regular_body (c_body (r_canonicalization E r)) (concat chunks)
       \/ agrees E canonical_body rfc_body config (so_signature o) (concat chunks)).
Proof. exact output_valid_rfc. Qed.
Print Assumptions C93_output.

(** A request as made by [SignRequest::new], verified under the default configuration *)
Theorem C93_fresh : forall E d s alg key headers chunks clock j o zone now, idna_ok (env_idna E) -> crypto_nonempty (env_crypto E) ->
  let r := request_new E d s alg key in
  Forall is_scalar d -> Forall is_scalar s -> alg <> RsaSha1 ->
  signed_output E headers chunks clock j r o ->
  key_published E r default_config (fun p => zone (key_name p)) ->
  clock j < 2^64 - 1 -> now < 2^64 - 1 -> clock j <= now + 300 -> now < clock j + 432000 + 300 ->
  ((exists sig k, valid_dkim E rfc_body zone default_config now (signature_field o :: headers) (concat chunks)
      (so_header_name o) (as_bytes (so_header_value o)) sig k)
   <-> only_crlfs (concat chunks) = false \/ hash_fn (env_crypto E) Sha256 [] = hash_fn (env_crypto E) Sha256 [13; 10]).
Proof. exact fresh_rfc. Qed.
Print Assumptions C93_fresh.

Lemma sha256_break : sha256 [] <> sha256 [13; 10].
Proof. vm_compute. discriminate. Qed.
Lemma real_hash : forall pre m idna x, hash_fn (env_crypto (real_env pre m idna)) Sha256 x = sha256 x.
Proof. reflexivity. Qed.
Lemma real_break : forall pre m idna,
  hash_fn (env_crypto (real_env pre m idna)) Sha256 [] <> hash_fn (env_crypto (real_env pre m idna)) Sha256 [13; 10].
Proof. intros pre m idna. rewrite !real_hash. exact sha256_break. Qed.

(** With SHA-256 and the algorithms of RFC 8017 and RFC 8032: exactly if the body does
    not consist of line breaks only. *)
Theorem C93_real : forall pre m idna d s alg key headers chunks clock j o zone now,
  let E := real_env pre m idna in
  idna_ok idna ->
  let r := request_new E d s alg key in
  Forall is_scalar d -> Forall is_scalar s -> alg <> RsaSha1 ->
  signed_output E headers chunks clock j r o ->
  key_published E r default_config (fun p => zone (key_name p)) ->
  clock j < 2^64 - 1 -> now < 2^64 - 1 -> clock j <= now + 300 -> now < clock j + 432000 + 300 ->
  ((exists sig k, valid_dkim E rfc_body zone default_config now (signature_field o :: headers) (concat chunks)
      (so_header_name o) (as_bytes (so_header_value o)) sig k)
   <-> only_crlfs (concat chunks) = false).
Proof.
  intros pre m idna d s alg key headers chunks clock j o zone now E IO r Hd Hs Ha HO K T1 T2 T3 T4.
  pose proof (C93_fresh E d s alg key headers chunks clock j o zone now IO real_nonempty Hd Hs Ha HO K T1 T2 T3 T4) as [H1 H2].
  split; [|auto]. intros H. destruct (H1 H) as [X|X]; [exact X|]. destruct (real_break _ _ _ X).
Qed.
Print Assumptions C93_real.

(** Success here, for a body that is one of the corner cases: valid by the RFC exactly if
    the forms agree. *)
Theorem C93_success : forall E w headers config chunks zone rs i name value r, world_ok w -> steady (w_resolver w) zone ->
  header_fields headers -> verify_message E w headers config chunks = Val (Some rs) -> result_for config headers rs i name value r ->
  forall sig, vr_status r = Success -> vr_signature r = Some sig -> ~ regular_body (c_body (s_canonicalization sig)) (concat chunks) ->
  ((exists sig' k, valid_dkim E rfc_body zone config (w_clock w i) headers (concat chunks) name value sig' k)
   <-> agrees E canonical_body rfc_body config sig (concat chunks)).
Proof. exact success_other. Qed.
Print Assumptions C93_success.

(** The same the other way round *)
Theorem C93_valid : forall E w headers config chunks zone rs i name value r, world_ok w -> steady (w_resolver w) zone ->
  header_fields headers -> verify_message E w headers config chunks = Val (Some rs) -> result_for config headers rs i name value r ->
  forall sig k, valid_dkim E rfc_body zone config (w_clock w i) headers (concat chunks) name value sig k ->
  ~ regular_body (c_body (s_canonicalization sig)) (concat chunks) ->
  (vr_status r = Success <-> agrees E canonical_body rfc_body config sig (concat chunks)).
Proof. exact valid_accepted. Qed.
Print Assumptions C93_valid.

(** In the corner cases, the forms themselves differ, by a line break at the end. *)
Theorem C93_forms : forall alg body form, canonicalize_body alg [body] = Val form ->
  (regular_body alg body -> form = rfc_body alg body)
  /\ (~ regular_body alg body -> rfc_body alg body = form ++ [13; 10] \/ form = rfc_body alg body ++ [13; 10]).
Proof.
  intros alg body form H.
  assert (form = canonical_body alg body) as ->.
  { destruct alg; cbn [canonical_body]; [rewrite simple_body_spec in H|rewrite relaxed_body_spec in H];
      cbn [concat] in H; rewrite app_nil_r in H; injection H as <-; reflexivity. }
  split; [apply rfc_regular|apply irregular_forms].
Qed.
Print Assumptions C93_forms.

(** ** Samples *)

Definition breaks : list (list byte) := [[13; 10; 13]; [10]].
Definition breaks_output : SigningOutput :=
  match sign_message ascii_env (fun l => l) sample_headers [fresh_request] breaks (fun _ => 1000) with
  | Val (Ok [Ok o]) => o
  | _ => mkOutput [] [] (mkSig RsaSha256 [] [] (mkCanon Simple Simple) [] [] None None [] None None [] [])
  end.

Lemma breaks_signed : signed_output ascii_env sample_headers breaks (fun _ => 1000) 0 fresh_request breaks_output.
Proof.
  destruct C53_example as ((Tc & Hf & order & rs & results & Tr & _ & _ & Nr & _) & _). split; [exact Tc|]. split; [exact Hf|].
  exists (fun l => l), [fresh_request], [Ok breaks_output]. split.
  - constructor; [|constructor]. rewrite Forall_forall in Tr. apply Tr. eapply nth_error_In. exact Nr.
  - split; [intros l; apply Permutation_refl|]. split; [vm_compute; reflexivity|]. split; reflexivity.
Qed.

(** So not everything signed here, and found valid here, is valid by the RFC. *)
Theorem C93_all_refuted : ~ forall E w headers chunks clock j r o zone rs res,
  idna_ok (env_idna E) -> crypto_nonempty (env_crypto E) ->
  readable_output E headers chunks clock j r o ->
  world_ok w -> steady (w_resolver w) zone -> header_fields (signature_field o :: headers) ->
  verify_message E w (signature_field o :: headers) default_config chunks = Val (Some rs) ->
  result_for default_config (signature_field o :: headers) rs 0 (so_header_name o) (as_bytes (so_header_value o)) res ->
  vr_status res = Success ->
  exists sig k, valid_dkim E rfc_body zone default_config (w_clock w 0) (signature_field o :: headers) (concat chunks)
    (so_header_name o) (as_bytes (so_header_value o)) sig k.
Proof.
  intros H. assert (Forall is_scalar (lit "Example.com") /\ Forall is_scalar (lit "a-very.long-selector.name")) as [Sd Ss]
    by (split; unfold is_scalar; repeat constructor; cbn; lia).
  assert (RsaSha256 <> RsaSha1) as Na by discriminate.
  pose proof (fresh_readable ascii_env (lit "Example.com") (lit "a-very.long-selector.name") RsaSha256 (SkRsa (C := sized_crypto) 7) sample_headers breaks (fun _ => 1000) 0%nat breaks_output Sd Ss Na eq_refl breaks_signed) as RO.
  destruct (verify_message ascii_env (sample_world 20 good_records) (signature_field breaks_output :: sample_headers) default_config breaks)
    as [[[|res rest]|]|] eqn:V; [vm_compute in V; discriminate V| |vm_compute in V; discriminate V..].
  assert (vr_status res = Success) as S by (vm_compute in V; injection V as <- _; reflexivity).
  assert (header_fields (signature_field breaks_output :: sample_headers)) as F.
  { destruct (field_named ascii_env _ _ _ _ _ _ ascii_idna_ok RO) as [_ Ff]. apply Forall_cons_iff in Ff as [Ff _]. constructor; [exact Ff|exact sample_header_fields]. }
  assert (result_for default_config (signature_field breaks_output :: sample_headers) (res :: rest) 0 (so_header_name breaks_output)
    (as_bytes (so_header_value breaks_output)) res) as RF by (exists 0%nat; split; [vm_compute; reflexivity|reflexivity]).
  pose proof (H ascii_env (sample_world 20 good_records) sample_headers breaks (fun _ => 1000) 0%nat fresh_request breaks_output _ _ _
    ascii_idna_ok sized_nonempty RO (sample_world_ok _ _) (sample_steady _ _) F V RF S) as X.
  change (w_clock (sample_world 20 good_records) 0) with 1003 in X.
  apply (C93_fresh ascii_env (lit "Example.com") (lit "a-very.long-selector.name") RsaSha256 (SkRsa (C := sized_crypto) 7) sample_headers breaks (fun _ => 1000) 0%nat
    breaks_output (sample_zone good_records) 1003 ascii_idna_ok sized_nonempty Sd Ss Na breaks_signed) in X; try reflexivity.
  - destruct X as [X|X]; vm_compute in X; discriminate X.
  - apply sample_published; reflexivity.
  - discriminate.
Qed.
Print Assumptions C93_all_refuted.

(** the sample signature (with l=), among two other ones; a body for which l= makes the
    corner case immaterial, and one for which it does not *)
Example C93_example :
  let above := [(lit "dkim-signature", lit " v=1; a=rsa-sha256")] in
  let extra := above ++ [signature_field output_sample; signature_field output_sample] in
  (exists sig k, valid_dkim ascii_env rfc_body (sample_zone good_records) default_config 1003 (extra ++ sample_headers) (concat output_chunks)
    (so_header_name output_sample) (as_bytes (so_header_value output_sample)) sig k)
  /\ (let sig l := mkSig RsaSha256 [] [] (mkCanon Relaxed Relaxed) [] [] None (Some l) [] None None [] [] in
      ~ regular_body Relaxed [97; 13; 10; 32]
      /\ agrees ascii_env canonical_body rfc_body default_config (sig 3) [97; 13; 10; 32]
      /\ ~ agrees ascii_env canonical_body rfc_body default_config (sig 5) [97; 13; 10; 32]).
Proof.
  destruct C37_example as (RO & NO & _ & G & Cov & K & _ & _). cbv zeta. split.
  - eapply (C93_output ascii_env default_config sample_headers _ output_chunks); [exact ascii_idna_ok|exact sized_nonempty|exact RO|exact signed_header_fields|exact NO|exact G|exact Cov|exact K|].
    left. vm_compute. reflexivity.
  - split; [discriminate|]. split; [vm_compute; repeat split; discriminate|]. intros (_ & _ & X). vm_compute in X. apply X. reflexivity.
Qed.
