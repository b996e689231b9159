(** Properties C83 and C84: signatures cannot be altered; what one signature can stand
    for. *)

From Coq Require Import String List NArith.
From Verif Require Import Base Utf8 Canon BodyHash Header TagList Domain Signature KeyRecord Crypto Base64 Format Sign Verify
  SpecText SpecCanon SpecHash SpecHeader SpecTag SpecDomain SpecSig SpecRecord SpecFormat SpecSign SpecOutput SpecVerify SpecEnd SpecDkim SpecCause SpecRsa SpecEd SpecReal SpecUnique
  Concrete HeaderProofs SigProofs RecordProofs VerifyFacts DkimProofs ConcreteProofs EdSpecProofs RealProofs UniqueProofs EdAnyProofs UniqueEnd Lib Sample SampleRsa SampleEd
  PropDomain PropSign PropOutput PropVerify PropEnd PropDkim PropRsa PropReal PropEd UniqueSample.
Import ListNotations.
Open Scope N_scope.

(** ** C83 *)

(** A digest has one RSA signature. *)
Theorem C83_rsa : forall a n e d digest sig sig', rsa_pair n e d -> length digest = digest_size a ->
  rsa_valid a n e digest sig -> rsa_valid a n e digest sig' -> sig = sig'.
Proof. exact rsa_one_signature. Qed.
Print Assumptions C83_rsa.

(** Valid Ed25519 signatures of the same digest with the same first half are the same. *)
Theorem C83_ed25519 : forall public digest sig sig', ed_valid sha512 public digest sig -> ed_valid sha512 public digest sig' ->
  firstn 32 sig = firstn 32 sig' -> sig = sig'.
Proof. exact ed_one_signature. Qed.
Print Assumptions C83_ed25519.

(** Two messages in which the same text was signed, both verified with the same key
    record: they have the same signature.  *)
Theorem C83_same_text : forall pre m idna headers headers' body body' name name' value value' sig sig' k data,
  let E := real_env pre m idna in
  idna_ok idna -> verified E headers body name value sig k -> verified E headers' body' name' value' sig' k ->
  signed_text E headers name value sig data -> signed_text E headers' name' value' sig' data ->
  ((exists n e d, rsa_key_of k n e /\ rsa_pair n e d)
   \/ k_key_type k = Ed25519 /\ firstn 32 (s_signature_data sig') = firstn 32 (s_signature_data sig)) ->
  s_signature_data sig' = s_signature_data sig /\ same_tags_of sig sig'
  /\ covered_fields headers sig = covered_fields headers' sig' /\ same_name name name'.
Proof.
  intros pre m idna headers headers' body body' name name' value value' sig sig' k data E IO V V' D D' C.
  split; [|exact (same_text _ _ _ _ _ _ _ _ _ _ _ _ _ _ _ IO V V' D D')]. destruct C as [(n & e & d & Ke & P)|(T & H)].
  - exact (rsa_unaltered _ _ _ _ _ _ _ _ _ _ _ _ _ _ _ IO V V' D D' n e d Ke P).
  - exact (ed_unaltered _ _ _ _ _ _ _ _ _ _ _ _ _ _ _ IO V V' D D' T H).
Qed.
Print Assumptions C83_same_text.

(** In a message, the value of b= in one signature is replaced by something else: when
    both messages verify, the signature has not changed. *)
Theorem C83_altered : forall pre m idna before after body body' name s s' sig sig' k,
  let E := real_env pre m idna in
  idna_ok idna -> Forall is_scalar s -> Forall is_scalar s' ->
  verified E (before ++ (name, as_bytes s) :: after) body name (as_bytes s) sig k ->
  verified E (before ++ (name, as_bytes s') :: after) body' name (as_bytes s') sig' k ->
  b_replaced s s' -> (forall n, In n (s_signed_headers sig) -> ~ same_name n name) ->
  ((exists n e d, rsa_key_of k n e /\ rsa_pair n e d)
   \/ k_key_type k = Ed25519 /\ firstn 32 (s_signature_data sig') = firstn 32 (s_signature_data sig)) ->
  s_signature_data sig' = s_signature_data sig.
Proof. exact altered. Qed.
Print Assumptions C83_altered.

(** ** C84 *)

(** An RSA signature, with whatever key, is of one digest. *)
Theorem C84_rsa : forall a a' n e digest digest' sig, length digest = digest_size a -> length digest' = digest_size a' ->
  rsa_valid a n e digest sig -> rsa_valid a' n e digest' sig -> a = a' /\ digest = digest'.
Proof. exact rsa_one_digest. Qed.
Print Assumptions C84_rsa.

(** An Ed25519 signature valid for one digest is valid for another one exactly if the
    numbers that SHA-512 gives for the two are the same modulo the order of the curve's
    base point, if the public key belongs to a private key. *)
Theorem C84_ed25519_partial : forall key public digest digest' sig x x', ed_public_key sha512 key public ->
  ed_valid sha512 public digest sig ->
  little_endian (sha512 (firstn 32 sig ++ public ++ digest)) x -> little_endian (sha512 (firstn 32 sig ++ public ++ digest')) x' ->
  (ed_valid sha512 public digest' sig <-> x mod ed_order = x' mod ed_order).
Proof. exact ed_same_hash. Qed.
Print Assumptions C84_ed25519_partial.

(** With any public key, it is valid for another digest exactly if the public key, a point
    [a] of the curve, has the same multiple for the two numbers. *)
Theorem C84_ed25519_any_key : forall public a digest digest' sig x x' y, ed_reading a public ->
  ed_valid sha512 public digest sig ->
  little_endian (sha512 (firstn 32 sig ++ public ++ digest)) x -> little_endian (sha512 (firstn 32 sig ++ public ++ digest')) x' ->
  ed_multiple a (x mod ed_order) y ->
  (ed_valid sha512 public digest' sig <-> ed_multiple a (x' mod ed_order) y).
Proof. exact ed_same_multiple. Qed.
Print Assumptions C84_ed25519_any_key.

(** Two messages verified with the same key record and the same RSA signature: what was
    signed in them has the same digest. *)
Theorem C84_rsa_partial : forall pre m idna headers headers' body body' name name' value value' sig sig' k data data',
  let E := real_env pre m idna in let sha := hash_fn real_crypto in
  verified E headers body name value sig k -> verified E headers' body' name' value' sig' k ->
  signed_text E headers name value sig data -> signed_text E headers' name' value' sig' data' ->
  s_signature_data sig' = s_signature_data sig -> k_key_type k = Rsa ->
  alg_hash (s_algorithm sig) = alg_hash (s_algorithm sig')
  /\ sha (alg_hash (s_algorithm sig)) data = sha (alg_hash (s_algorithm sig')) data'.
Proof. exact rsa_stands_for. Qed.
Print Assumptions C84_rsa_partial.

(** Hence they are the same in what was signed, or two texts with the same digest are at
    hand. *)
Theorem C84_rsa_content_partial : forall pre m idna headers headers' body body' name name' value value' sig sig' k data data',
  let E := real_env pre m idna in let sha := hash_fn real_crypto in
  idna_ok idna -> verified E headers body name value sig k -> verified E headers' body' name' value' sig' k ->
  signed_text E headers name value sig data -> signed_text E headers' name' value' sig' data' ->
  s_signature_data sig' = s_signature_data sig -> k_key_type k = Rsa ->
  (same_tags_of sig sig' /\ covered_fields headers sig = covered_fields headers' sig' /\ same_name name name')
  \/ collision E (alg_hash (s_algorithm sig)) data data'.
Proof.
  intros pre m idna headers headers' body body' name name' value value' sig sig' k data data' E sha IO V V' D D' S T.
  destruct (rsa_stands_for _ _ _ _ _ _ _ _ _ _ _ _ _ _ _ _ V V' D D' S T) as (A & H).
  destruct (list_eq_dec N.eq_dec data data') as [<-|Ne]; [left|right; split; [exact Ne|rewrite <- A in H; exact H]].
  exact (same_text _ _ _ _ _ _ _ _ _ _ _ _ _ _ _ IO V V' D D').
Qed.
Print Assumptions C84_rsa_content_partial.

(** The same for Ed25519, when the public key belongs to a private key, up to the hash
    that is part of Ed25519. *)
Theorem C84_ed25519_content_partial : forall pre m idna headers headers' body body' name name' value value' sig sig' k data data' key public x x',
  let E := real_env pre m idna in let sha := hash_fn real_crypto in
  verified E headers body name value sig k -> verified E headers' body' name' value' sig' k ->
  signed_text E headers name value sig data -> signed_text E headers' name' value' sig' data' ->
  s_signature_data sig' = s_signature_data sig -> ed_public_key sha512 key public -> ed_key_of k public ->
  little_endian (sha512 (firstn 32 (s_signature_data sig) ++ public ++ sha (alg_hash (s_algorithm sig)) data)) x ->
  little_endian (sha512 (firstn 32 (s_signature_data sig) ++ public ++ sha (alg_hash (s_algorithm sig')) data')) x' ->
  x mod ed_order = x' mod ed_order.
Proof.
  intros pre m idna headers headers' body body' name name' value value' sig sig' k data data' key public x x' E sha V V' D D' S P K X X'.
  exact (ed_stands_for _ _ _ _ _ _ _ _ _ _ _ _ _ _ _ _ V V' D D' S key public x x' P K X X').
Qed.
Print Assumptions C84_ed25519_content_partial.

(** But there is a public key, and one signature valid for every digest. *)
Theorem C84_weak_key : exists public sig, Forall is_byte public /\ (exists a, ed_encoding a public) /\ forall digest, ed_valid sha512 public digest sig.
Proof.
  exists weak_public, (weak_public ++ repeat 0 32). split; [apply all_bytes; vm_compute; reflexivity|]. split; [eexists; exact weak_encoding|exact weak_valid].
Qed.
Print Assumptions C84_weak_key.

(** ** One signature for every sender *)

(** The same signature field makes a message from anybody verify. *)
Theorem C84_every_sender_refuted : exists name value sig k, forall from, field_body from -> Forall is_byte from ->
  verified ed_env [(name, value); (lit "From", from)] [] name value sig k.
Proof. exists (lit "DKIM-Signature"), (as_bytes weak_text), weak_sig, weak_record. exact (proj2 weak_good1). Qed.
Print Assumptions C84_every_sender_refuted.

Theorem C84_refuted : ~ forall pre m idna headers headers' body body' name name' value value' sig sig' k data data',
  let E := real_env pre m idna in let sha := hash_fn real_crypto in
  idna_ok idna -> verified E headers body name value sig k -> verified E headers' body' name' value' sig' k ->
  signed_text E headers name value sig data -> signed_text E headers' name' value' sig' data' ->
  s_signature_data sig' = s_signature_data sig ->
  sha (alg_hash (s_algorithm sig)) data = sha (alg_hash (s_algorithm sig')) data'.
Proof.
  intros H. destruct (weak_from (lit " a@example.com")) as (Fa & Ba); [reflexivity..|]. destruct (weak_from (lit " b@example.org")) as (Fb & Bb); [reflexivity..|].
  pose proof (H false (2^64 - 1) ascii_idna _ _ _ _ _ _ _ _ _ _ _ _ _ ascii_idna_ok (proj2 weak_good1 _ Fa Ba) (proj2 weak_good1 _ Fb Bb) (proj1 weak_good1 _) (proj1 weak_good1 _) eq_refl) as X.
  exact (weak_digests X).
Qed.
Print Assumptions C84_refuted.

(** ** Examples *)

(** the hypotheses of C83_altered and of C84: messages verified with an RSA key *)
Example C83_example : exists headers name value sig k data,
  verified rsa_env headers (concat output_chunks) name value sig k /\ signed_text rsa_env headers name value sig data
  /\ rsa_key_of k short_n sample_e /\ rsa_pair short_n sample_e short_d.
Proof.
  destruct short_verified as (o & rs & r & k & F & V & R & S & K & T & D).
  destruct (real_success _ _ _ _ _ _ _ _ _ _ _ _ _ (sample_world_ok _ _) (sample_steady _ _) F V R) as (_ & X & _).
  destruct (X S) as (sig & k' & Sg & K' & Va). rewrite K in K'. injection K' as <-.
  destruct Va as (s & tags & rt & rtags & data & rest & Sc & Ev & Ta & So & _ & _ & _ & _ & _ & _ & _ & _ & Sd & _).
  exists (signature_field o :: sample_headers), (so_header_name o), (as_bytes (so_header_value o)), sig, k, data.
  split. { exists short_world, (sample_zone [short_key_record]), default_config, output_chunks, rs, 0%nat, r.
    split; [apply sample_world_ok|]. split; [apply sample_steady|]. auto 10. }
  split; [exists s, tags; auto|]. split; [|exact short_pair]. split; [exact T|]. split; [|exact short_accepted]. right. rewrite D. exact short_public_der.
Qed.

(** the hypotheses of C83_altered, with a signature written in another way *)
Example C83_altered_example :
  verified ed_env ([] ++ (lit "DKIM-Signature", as_bytes weak_text) :: [(lit "From", lit " a@example.com")]) [] (lit "DKIM-Signature") (as_bytes weak_text) weak_sig weak_record
  /\ verified ed_env ([] ++ (lit "DKIM-Signature", as_bytes weak_text2) :: [(lit "From", lit " a@example.com")]) [] (lit "DKIM-Signature") (as_bytes weak_text2) weak_sig weak_record
  /\ b_replaced weak_text weak_text2 /\ weak_text <> weak_text2 /\ k_key_type weak_record = Ed25519
  /\ Forall (fun n => ~ same_name n (lit "DKIM-Signature")) (s_signed_headers weak_sig).
Proof.
  destruct (weak_from (lit " a@example.com")) as (Fa & Ba); [reflexivity..|].
  split; [exact (proj2 weak_good1 _ Fa Ba)|]. split; [exact (proj2 weak_good2 _ Fa Ba)|].
  split.
  { set (v := encode_base64 (weak_public ++ repeat 0 32)).
    set (a := lit " v=1; a=ed25519-sha256; c=relaxed/relaxed; d=example.com; s=a-very.long-selector.name; h=From; bh=47DEQpj8HBSa+/TImW+5JCeuQeRkm5NMpJWZG3hSuFU=;").
    destruct (tag_list_from_str weak_text) as [tags|] eqn:L; [|vm_compute in L; discriminate L..].
    destruct (tag_list_from_str weak_text2) as [tags2|] eqn:L2; [|vm_compute in L2; discriminate L2..].
    exists tags, tags2, v, v, (a ++ lit " b="). split; [apply tags_of_iff; exact L|]. split; [apply tags_of_iff; exact L2|].
    split; [vm_compute in L; injection L as <-; vm_compute; reflexivity|]. split; [vm_compute in L2; injection L2 as <-; vm_compute; reflexivity|].
    assert (ofws [] /\ ofws (lit " ")) as (W & W'). { split; [left; reflexivity|]. right. exists (lit " "). split; [constructor; [left; reflexivity|constructor]|]. split; [discriminate|left; reflexivity]. }
    split; [exists a, (lit " "), [], [], [], []|exists a, (lit " "), [], [], (lit " "), []]; repeat (split; [assumption|]);
      (split; [right; eexists (removelast a); vm_compute; reflexivity|]); (split; [left; reflexivity|]); split; vm_compute; reflexivity. }
  split; [vm_compute; discriminate|]. split; [reflexivity|]. constructor; [|constructor]. vm_compute. discriminate.
Qed.

(** the hypotheses of C84_ed25519_content_partial *)
Example C84_example : exists headers body name value sig k data,
  verified ed_env headers body name value sig k /\ signed_text ed_env headers name value sig data
  /\ ed_key_of k ed_sample_public /\ ed_public_key sha512 ed_sample_key ed_sample_public.
Proof.
  destruct ed_sample_verified as (headers & body & name & value & sig & k & data & V & S & K).
  exists headers, body, name, value, sig, k, data. split; [exact V|]. split; [exact S|]. split; [exact K|exact ed_sample_public_key].
Qed.

(** the hypotheses of C84_ed25519_any_key, with the key of C84_weak_key: all its multiples are the same *)
Example C84_any_key_example : exists a public sig, ed_reading a public /\ forall digest x, ed_valid sha512 public digest sig /\ ed_multiple a (x mod ed_order) a.
Proof.
  exists (EdSpecProofs.W Ed25519Proofs.none), weak_public, (weak_public ++ repeat 0 32). split; [apply EdSpecProofs.encoding_reading; exact weak_encoding|]. intros digest x. split; [apply weak_valid|].
  pose proof (EdSpecProofs.multiple_W Ed25519Proofs.none (x mod ed_order) Ed25519Proofs.on_none) as H. rewrite OrderProofs.manyN_none in H. exact H.
Qed.
