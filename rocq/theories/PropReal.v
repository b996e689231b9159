(** Property C80: with the cryptography of the standards, success is the validity of the
    signature; and what of C49 depends on it. *)

From Coq Require Import String List Permutation.
From Verif Require Import Base Utf8 Canon BodyHash Header TagList Domain Signature KeyRecord Crypto Format Sign Verify
  SpecText SpecCanon SpecHash SpecHeader SpecTag SpecDomain SpecSig SpecRecord SpecFormat SpecSign SpecOutput SpecVerify SpecEnd SpecDkim SpecCause SpecRsa SpecEd SpecReal
  Concrete RecordProofs EndProofs DkimProofs ConcreteProofs CauseProofs RsaProofs RealProofs Lib Sample SampleRsa PropDomain PropSign PropOutput PropVerify PropEnd PropDkim PropPrograms PropRsa.
Import ListNotations.
Open Scope N_scope.

(** ** C80 *)

(** The keys read from a record's data: the two encodings of RSA keys, and of Ed25519
    keys. *)
Theorem C80_rsa_key : forall pre m idna data k, Forall is_byte data ->
  (key_in (real_env pre m idna) Rsa data (VkRsa (C := real_crypto) k)
   <-> (rsa_info_der (rk_n k) (rk_e k) data \/ rsa_public_der (rk_n k) (rk_e k) data) /\ rsa_accepted (rk_n k) (rk_e k)).
Proof. exact rsa_key_in. Qed.
Print Assumptions C80_rsa_key.

Theorem C80_ed_key : forall pre m idna data, Forall is_byte data ->
  ((exists q, key_in (real_env pre m idna) Ed25519 data (VkEd25519 (C := real_crypto) q))
   <-> exists public a, (data = public \/ ed_info_der public data) /\ ed_reading a public).
Proof. exact ed_key_readable. Qed.
Print Assumptions C80_ed_key.

(** RSA signatures are confirmed exactly if RFC 8017 says they are valid. *)
Theorem C80_rsa : forall n e a digest sig, rsa_accepted n e -> length digest = digest_size a -> Forall is_byte digest -> Forall is_byte sig ->
  (rsa_verify real_crypto (mkRsaKey n e) a digest sig = true <-> rsa_valid a n e digest sig).
Proof.
  intros n e a digest sig A. destruct (accepted_nonzero _ _ A) as (N0 & E0). exact (rsa_check_spec (mkRsaKey n e) a digest sig N0 E0).
Qed.
Print Assumptions C80_rsa.

(** A result is success exactly if the signature is valid. *)
Theorem C80_success : forall pre m idna w headers config chunks zone rs i name value r,
  let E := real_env pre m idna in
  world_ok w -> steady (w_resolver w) zone -> header_fields headers ->
  verify_message E w headers config chunks = Val (Some rs) -> result_for config headers rs i name value r ->
  let valid := valid_signature (hash_fn real_crypto) sha512 E canonical_body zone config (w_clock w i) headers (concat chunks) name value in
  (vr_status r = Success <-> exists sig k, valid sig k)
  /\ (vr_status r = Success -> exists sig k, vr_signature r = Some sig /\ vr_key_record r = Some k /\ valid sig k)
  /\ (forall sig k, valid sig k -> vr_signature r = Some sig).
Proof. exact real_success. Qed.
Print Assumptions C80_success.

(** With the canonical form of the RFC, for bodies other than the two corner cases. *)
Theorem C80_rfc : forall pre m idna w headers config chunks zone rs i name value r,
  let E := real_env pre m idna in
  world_ok w -> steady (w_resolver w) zone -> header_fields headers ->
  verify_message E w headers config chunks = Val (Some rs) -> result_for config headers rs i name value r ->
  let valid := valid_signature (hash_fn real_crypto) sha512 E rfc_body zone config (w_clock w i) headers (concat chunks) name value in
  (forall sig, vr_signature r = Some sig -> regular_body (c_body (s_canonicalization sig)) (concat chunks)) ->
  (vr_status r = Success <-> exists sig k, valid sig k)
  /\ (vr_status r = Success -> exists sig k, vr_signature r = Some sig /\ vr_key_record r = Some k /\ valid sig k).
Proof. exact real_success_rfc. Qed.
Print Assumptions C80_rfc.

(** ** A sample: a key of 1017 bits *)

Lemma short_record_read : exists k, record_from_str false short_key_record = Val (Ok k)
  /\ k_key_type k = Rsa /\ In Sha256 (k_hash_algorithms k) /\ k_key_data k = short_public.
Proof. eexists. split; [vm_compute; reflexivity|]. split; [reflexivity|]. split; [left; reflexivity|reflexivity]. Qed.

Lemma short_published : rsa_published rsa_env (sample_zone [short_key_record]) (lit "Example.com") (lit "a-very.long-selector.name") short_n sample_e.
Proof.
  destruct short_record_read as (k & K & K1 & K2 & K3).
  exists (lit "example.com"), (lit "a-very.long-selector.name"), [Ok (as_bytes short_key_record)], (Ok (as_bytes short_key_record)), k.
  split; [reflexivity|]. split; [reflexivity|]. split; [reflexivity|]. split; [left; reflexivity|].
  split. { apply record_reads_iff. exists short_key_record. split; [|exact K]. constructor. apply text_b_scalar. vm_compute. reflexivity. }
  split; [exact K1|]. split; [exact K2|]. right. rewrite K3. exact short_public_der.
Qed.

Definition short_clock : nat -> N := fun _ => 1000.
Definition short_world : World := sample_world 20 [short_key_record].

Lemma short_verified : exists o rs r k, let headers := signature_field o :: sample_headers in
  header_fields headers /\ verify_message rsa_env short_world headers default_config output_chunks = Val (Some rs)
  /\ result_for default_config headers rs 0 (so_header_name o) (as_bytes (so_header_value o)) r
  /\ vr_status r = Success /\ vr_key_record r = Some k /\ k_key_type k = Rsa /\ k_key_data k = short_public.
Proof.
  destruct (real_end_to_end_result false (2^64 - 1) ascii_idna (@rev _) short_world short_n sample_e short_d [] (lit "Example.com") (lit "a-very.long-selector.name")
    sample_headers output_chunks output_chunks short_clock (sample_zone [short_key_record])) as (o & _ & F & rs & r & V & R & S).
  - exact ascii_idna_ok.
  - exact short_pair.
  - exact short_accepted.
  - apply short_bits.
  - destruct (DomainProofs.domain_new_spec ascii_idna (lit "Example.com")) as (rd & X & Y). vm_compute in X. injection X as <-. exact (proj2 (proj1 (Y _) eq_refl)).
  - destruct (DomainProofs.selector_new_spec ascii_idna (lit "a-very.long-selector.name")) as (rd & X & Y). vm_compute in X. injection X as <-. exact (proj2 (proj1 (Y _) eq_refl)).
  - apply sample_scalar.
  - apply sample_scalar.
  - intros l. symmetry. apply Permutation_rev.
  - exact sample_header_fields.
  - exists (lit "From", lit " me@example.com"). split; [right; left; reflexivity|reflexivity].
  - apply sample_world_ok.
  - apply sample_steady.
  - exact short_published.
  - reflexivity.
  - reflexivity.
  - discriminate.
  - reflexivity.
  - reflexivity.
  - exists o, rs, r. destruct (real_success _ _ _ _ _ _ _ _ _ _ _ _ _ (sample_world_ok _ _) (sample_steady _ _) F V R) as (_ & X & _).
    destruct (X S) as (sig & k & _ & K & Va). exists k. cbv zeta. split; [exact F|]. split; [exact V|]. split; [exact R|]. split; [exact S|]. split; [exact K|].
    destruct Va as (s & tags & rt & rtags & data & rest & _ & _ & _ & _ & _ & (d & sl & txts & D & Sl & Z & I) & Rs & Rt & Rr & _).
    destruct short_record_read as (k' & K' & T & _ & Da).
    assert (as_bytes rt = as_bytes short_key_record) as Eq.
    { unfold sample_zone in Z. destruct (leqb _ _); [|discriminate Z]. injection Z as <-. destruct I as [I|[]]. injection I as <-. reflexivity. }
    apply Utf8Proofs.as_bytes_inj in Eq; [|exact Rs|apply text_b_scalar; vm_compute; reflexivity]. subst rt.
    assert (record_from_str false short_key_record = Val (Ok k)) as Rd. { apply record_ok_iff. exists rtags. split; [apply tags_of_iff; exact Rt|exact Rr]. }
    rewrite K' in Rd. injection Rd as <-. auto.
Qed.

(** ** C49 *)

(** What a success says about the size of the key: counted in whole bytes, it has the
    bits required. *)
Theorem C49_bits_partial : forall pre m idna w headers config chunks zone rs i name value r,
  let E := real_env pre m idna in
  world_ok w -> steady (w_resolver w) zone -> header_fields headers ->
  verify_message E w headers config chunks = Val (Some rs) -> result_for config headers rs i name value r ->
  vr_status r = Success -> exists k, vr_key_record r = Some k
    /\ (k_key_type k = Rsa -> exists n e bits, (rsa_info_der n e (k_key_data k) \/ rsa_public_der n e (k_key_data k))
          /\ bits_in_bytes n bits /\ N.max (if pre then 512 else 1024) (cf_min_key_bits config) <= bits).
Proof. exact key_bits. Qed.
Print Assumptions C49_bits_partial.

(** But a key of 1017 bits is enough where 1024 are required. *)
Theorem C49_bits_refuted : ~ forall m idna w headers config chunks zone rs i name value r k n e,
  let E := real_env false m idna in
  world_ok w -> steady (w_resolver w) zone -> header_fields headers ->
  verify_message E w headers config chunks = Val (Some rs) -> result_for config headers rs i name value r ->
  vr_status r = Success -> vr_key_record r = Some k -> k_key_type k = Rsa ->
  rsa_info_der n e (k_key_data k) \/ rsa_public_der n e (k_key_data k) -> 2 ^ 1023 <= n.
Proof.
  intros H. destruct short_verified as (o & rs & r & k & F & V & R & S & K & T & D).
  specialize (H _ _ _ _ _ _ _ _ _ _ _ _ _ short_n sample_e (sample_world_ok _ _) (sample_steady _ _) F V R S K T).
  rewrite D in H. specialize (H (or_intror short_public_der)). apply N.leb_le in H. vm_compute in H. discriminate H.
Qed.
Print Assumptions C49_bits_refuted.

(** ** Examples *)

(** the hypotheses of C80_success, and a signature that is valid *)
Example C80_example : exists o rs r sig k, let headers := signature_field o :: sample_headers in
  header_fields headers /\ verify_message rsa_env short_world headers default_config output_chunks = Val (Some rs)
  /\ result_for default_config headers rs 0 (so_header_name o) (as_bytes (so_header_value o)) r
  /\ valid_signature (hash_fn real_crypto) sha512 rsa_env canonical_body (sample_zone [short_key_record]) default_config 1003 headers
       (concat output_chunks) (so_header_name o) (as_bytes (so_header_value o)) sig k
  /\ k_key_data k = short_public.
Proof.
  destruct short_verified as (o & rs & r & k & F & V & R & S & K & T & D).
  destruct (real_success _ _ _ _ _ _ _ _ _ _ _ _ _ (sample_world_ok _ _) (sample_steady _ _) F V R) as (_ & X & _).
  destruct (X S) as (sig & k' & _ & K' & Va). rewrite K in K'. injection K' as <-. exists o, rs, r, sig, k. auto.
Qed.

(** keys: the sample's in both encodings; a length written in more bytes than needed, a
    number with needless zeros, and an even modulus are refused *)
Example C80_keys :
  rsa_from_spki real_crypto sample_info = Some (mkRsaKey sample_n sample_e)
  /\ rsa_from_pkcs1 real_crypto sample_public = Some (mkRsaKey sample_n sample_e)
  /\ rsa_from_pkcs1 real_crypto [48; 6; 2; 1; 35; 2; 1; 5] = Some (mkRsaKey 35 5)
  /\ map (rsa_from_pkcs1 real_crypto)
       [[48; 129; 6; 2; 1; 35; 2; 1; 5]; [48; 7; 2; 2; 0; 35; 2; 1; 5]; [48; 6; 2; 1; 36; 2; 1; 5]; [48; 6; 2; 1; 35; 2; 1; 4];
        [48; 6; 2; 1; 35; 2; 1; 37]; [48; 6; 2; 1; 35; 2; 1; 1]; [48; 6; 2; 1; 35; 2; 1; 5; 0]; [48; 7; 2; 1; 35; 2; 1; 5; 0]; [48; 6; 2; 1; 163; 2; 1; 5]]
     = repeat None 9.
Proof. repeat split; vm_compute; reflexivity. Qed.
