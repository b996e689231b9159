(** Property C90: exactly which changes to a message leave a signature valid. *)

From Coq Require Import String List NArith Permutation.
From Verif Require Import Base Utf8 Canon BodyHash Header TagList Domain Signature KeyRecord Crypto Base64 Format Sign Verify
  SpecText SpecCanon SpecHash SpecHeader SpecTag SpecDomain SpecSig SpecRecord SpecFormat SpecSign SpecOutput SpecVerify SpecEnd SpecDkim SpecCause SpecRsa SpecEd SpecReal SpecUnique
  SpecTransit SpecAuthor SpecChange
  Concrete SignProofs RsaProofs HeaderProofs HeaderCanonProofs SigProofs VerifyProofs VerifyFacts EndProofs DkimProofs ConcreteProofs RealProofs TransitProofs UniqueProofs UniqueEnd AuthorProofs ChangeProofs Lib Sample SampleRsa SampleEd
  PropDomain PropSign PropOutput PropVerify PropEnd PropTransit PropDkim PropRsa PropPrograms PropReal PropEd UniqueSample.
Import ListNotations.
Open Scope N_scope.

(** Of a message with a valid signature, only the body is changed: the signature stays
    valid exactly if the body was changed in ways that canonicalization disregards, or in
    the part that may be left unsigned, or if there is a collision of the hash. *)
Theorem C90_body : forall E config zone now headers body body' name value r r' sig,
  result_of E config zone now headers body name value r -> vr_status r = Success -> vr_signature r = Some sig ->
  result_of E config zone now headers body' name value r' ->
  (vr_status r' = Success <-> body_kept E config sig body body').
Proof. exact body_change. Qed.
Print Assumptions C90_body.

(** Anything may be changed: with an RSA key, the signature is still confirmed by the same
    key record exactly if the fields covered by the signature and the body were kept, up
    to canonicalization and collisions, and no unsigned fields were added of a name that
    may not be left unsigned. *)
Theorem C90_rsa : forall pre m idna config zone now headers headers' body body' name name' value r r' sig k data data',
  let E := real_env pre m idna in
  idna_ok idna ->
  result_of E config zone now headers body name value r -> vr_status r = Success -> vr_signature r = Some sig -> vr_key_record r = Some k ->
  k_key_type k = Rsa -> result_of E config zone now headers' body' name' value r' ->
  signed_text E headers name value sig data -> signed_text E headers' name' value sig data' ->
  (vr_status r' = Success /\ vr_key_record r' = Some k
   <-> protected_signed config sig headers'
       /\ (fields_kept sig name name' headers headers' \/ collision E (alg_hash (s_algorithm sig)) data data')
       /\ body_kept E config sig body body').
Proof. exact rsa_change. Qed.
Print Assumptions C90_rsa.

(** If there is just one key record, this is when the signature is still valid. *)
Theorem C90_rsa_one_record : forall pre m idna config zone now headers headers' body body' name name' value r r' sig data data',
  let E := real_env pre m idna in
  idna_ok idna ->
  result_of E config zone now headers body name value r -> vr_status r = Success -> vr_signature r = Some sig ->
  key_type_for (s_algorithm sig) = Rsa -> one_record E zone sig -> result_of E config zone now headers' body' name' value r' ->
  signed_text E headers name value sig data -> signed_text E headers' name' value sig data' ->
  (vr_status r' = Success
   <-> protected_signed config sig headers'
       /\ (fields_kept sig name name' headers headers' \/ collision E (alg_hash (s_algorithm sig)) data data')
       /\ body_kept E config sig body body').
Proof. exact rsa_change_one. Qed.
Print Assumptions C90_rsa_one_record.

(** The same with an Ed25519 key.  Instead of a collision there are two texts with SHA-512
    values that give the same multiple of the public key, a point of the curve ... *)
Theorem C90_ed25519_one_record : forall pre m idna config zone now headers headers' body body' name name' value r r' sig k public a data data' x x' y,
  let E := real_env pre m idna in let sha := hash_fn real_crypto in
  idna_ok idna ->
  result_of E config zone now headers body name value r -> vr_status r = Success -> vr_signature r = Some sig -> vr_key_record r = Some k ->
  ed_key_of k public -> ed_reading a public -> one_record E zone sig -> result_of E config zone now headers' body' name' value r' ->
  signed_text E headers name value sig data -> signed_text E headers' name' value sig data' ->
  little_endian (sha512 (firstn 32 (s_signature_data sig) ++ public ++ sha (alg_hash (s_algorithm sig)) data)) x ->
  little_endian (sha512 (firstn 32 (s_signature_data sig) ++ public ++ sha (alg_hash (s_algorithm sig)) data')) x' ->
  ed_multiple a (x mod ed_order) y ->
  (vr_status r' = Success
   <-> protected_signed config sig headers'
       /\ (fields_kept sig name name' headers headers' \/ data <> data' /\ ed_multiple a (x' mod ed_order) y)
       /\ body_kept E config sig body body').
Proof.
  intros pre m idna config zone now headers headers' body body' name name' value r r' sig k public a data data' x x' y E sha IO R S Sg K Kp En One R' D D' X X'.
  exact (ed_change_any _ _ _ _ _ _ _ _ _ _ _ _ _ _ _ _ _ _ _ _ _ _ _ IO R S Sg K Kp En One R' D D' X X' y).
Qed.
Print Assumptions C90_ed25519_one_record.

(** ... or, if the public key belongs to a private key, that are the same modulo the order
    of the base point. *)
Theorem C90_ed25519_private_key : forall pre m idna config zone now headers headers' body body' name name' value r r' sig k key public data data' x x',
  let E := real_env pre m idna in let sha := hash_fn real_crypto in
  idna_ok idna ->
  result_of E config zone now headers body name value r -> vr_status r = Success -> vr_signature r = Some sig -> vr_key_record r = Some k ->
  ed_public_key sha512 key public -> ed_key_of k public -> one_record E zone sig -> result_of E config zone now headers' body' name' value r' ->
  signed_text E headers name value sig data -> signed_text E headers' name' value sig data' ->
  little_endian (sha512 (firstn 32 (s_signature_data sig) ++ public ++ sha (alg_hash (s_algorithm sig)) data)) x ->
  little_endian (sha512 (firstn 32 (s_signature_data sig) ++ public ++ sha (alg_hash (s_algorithm sig)) data')) x' ->
  (vr_status r' = Success
   <-> protected_signed config sig headers'
       /\ (fields_kept sig name name' headers headers' \/ data <> data' /\ x mod ed_order = x' mod ed_order)
       /\ body_kept E config sig body body').
Proof.
  intros pre m idna config zone now headers headers' body body' name name' value r r' sig k key public data data' x x' E sha IO R S Sg K P Kp One R' D D' X X'.
  assert (exists a, ed_reading a public) as (a & En) by (destruct P as (? & ? & ? & a & _ & _ & _ & En); exists a; apply EdSpecProofs.encoding_reading; exact En).
  exact (ed_change_private _ _ _ _ _ _ _ _ _ _ _ _ _ _ _ _ _ _ _ _ _ _ _ IO R S Sg K Kp En One R' D D' X X' key P).
Qed.
Print Assumptions C90_ed25519_private_key.

(** ** Example *)

(** a message and a changed one: the second has a field on top and an empty line at the end *)
Example C90_example : exists headers name value r r' sig k data,
  let headers' := (lit "X-Added", lit " 1") :: headers in let body := concat output_chunks in let body' := body ++ [13; 10] in
  let zone := sample_zone [short_key_record] in
  result_of rsa_env default_config zone 1003 headers body name value r
  /\ vr_status r = Success /\ vr_signature r = Some sig /\ vr_key_record r = Some k /\ k_key_type k = Rsa
  /\ key_type_for (s_algorithm sig) = Rsa /\ one_record rsa_env zone sig
  /\ result_of rsa_env default_config zone 1003 headers' body' name value r'
  /\ signed_text rsa_env headers name value sig data /\ signed_text rsa_env headers' name value sig data
  /\ protected_signed default_config sig headers' /\ fields_kept sig name name headers headers' /\ body_kept rsa_env default_config sig body body'.
Proof.
  assert (Forall is_scalar (lit "Example.com") /\ Forall is_scalar (lit "a-very.long-selector.name")) as (Sd & Ss) by (split; apply sample_scalar).
  assert (domain_text ascii_idna (lit "Example.com") true) as Dd.
  { destruct (DomainProofs.domain_new_spec ascii_idna (lit "Example.com")) as (rd & X & Y). vm_compute in X. injection X as <-. exact (proj2 (proj1 (Y _) eq_refl)). }
  assert (domain_text ascii_idna (lit "a-very.long-selector.name") false) as Ds.
  { destruct (DomainProofs.selector_new_spec ascii_idna (lit "a-very.long-selector.name")) as (rd & X & Y). vm_compute in X. injection X as <-. exact (proj2 (proj1 (Y _) eq_refl)). }
  destruct (real_end_to_end_result false (2^64 - 1) ascii_idna (@rev _) short_world short_n sample_e short_d [] (lit "Example.com") (lit "a-very.long-selector.name")
    sample_headers output_chunks output_chunks short_clock (sample_zone [short_key_record])) as (o & Sg & F & rs & r & V & R & S).
  - exact ascii_idna_ok.
  - exact short_pair.
  - exact short_accepted.
  - apply short_bits.
  - exact Dd.
  - exact Ds.
  - exact Sd.
  - exact Ss.
  - intros l. symmetry. apply Permutation_rev.
  - exact sample_header_fields.
  - exists (lit "From", lit " me@example.com"). split; [right; left; reflexivity|reflexivity].
  - apply sample_world_ok.
  - apply sample_steady.
  - exact short_published.
  - reflexivity.
  - reflexivity.
  - discriminate.
  - reflexivity.
  - reflexivity.
  - set (sk := SkRsa (C := real_crypto) (mkRsaSecret (mkRsaKey short_n sample_e) short_d [])) in *.
    assert (signed_output rsa_env sample_headers output_chunks short_clock 0 (request_new rsa_env (lit "Example.com") (lit "a-very.long-selector.name") RsaSha256 sk) o) as So.
    { split; [apply real_typed|]. split; [exact sample_header_fields|].
      exists (@rev _), [request_new rsa_env (lit "Example.com") (lit "a-very.long-selector.name") RsaSha256 sk], [Ok o].
      split; [constructor; [apply request_new_typed; assumption|constructor]|]. split; [intros l; symmetry; apply Permutation_rev|]. split; [exact Sg|split; reflexivity]. }
    assert (signed_before := eq_refl : (short_clock 0 <? 2 ^ 64 - 1) = true). apply N.ltb_lt in signed_before.
    pose proof (fresh_readable rsa_env _ _ RsaSha256 sk _ _ _ _ _ Sd Ss ltac:(discriminate) signed_before So) as Rd.
    destruct (field_named rsa_env _ _ _ _ _ _ ascii_idna_ok Rd) as (Fn & _).
    destruct (fresh_read rsa_env _ _ _ _ _ _ _ _ _ ascii_idna_ok real_nonempty Rd) as (sig & Rs & Al & Bl & Nm).
    destruct (real_success _ _ _ _ _ _ _ _ _ _ _ _ _ (sample_world_ok _ _) (sample_steady _ _) F V R) as (_ & X & _).
    destruct (X S) as (sig1 & k & Sg1 & K & Va).
    destruct Va as (s & tags & rt & rtags & data & rest & Sc & Ev & Ta & Sof & _ & _ & _ & _ & _ & Ty & _ & _ & Sd' & _).
    assert (signature_read rsa_env (as_bytes (so_header_value o)) s (Ok sig1)) as Rs1.
    { apply sgr_text; [exact Sc|exact Ev|]. apply sig_ok_iff. exists tags. rewrite <- tags_of_iff. auto. }
    destruct (signature_read_det _ _ _ _ _ _ Rs Rs1) as (_ & Eq). injection Eq as <-.
    set (headers := signature_field o :: sample_headers) in *.
    assert (forall names, Forall (fun n => negb (leqb (lower (lit "X-Added")) n) = true) names -> forall n, In (lower n) names -> ~ same_name (lit "X-Added") n) as Q.
    { intros names Fa n In_ Y. rewrite Forall_forall in Fa. specialize (Fa _ In_). unfold same_name in Y. rewrite Y, leqb_refl in Fa. discriminate Fa. }
    assert (Forall (fun n => negb (leqb (lower (lit "X-Added")) n) = true) signed_by_default) as Dn.
    { apply Forall_forall. apply forallb_forall. vm_compute. reflexivity. }
    assert (~ among (lit "X-Added") (s_signed_headers sig)) as Na. { intros (n & In_ & Sn). exact (Q _ Dn n (Nm _ In_) Sn). }
    assert (header_fields ((lit "X-Added", lit " 1") :: headers)) as F2.
    { constructor; [|exact F]. split; [apply (proj1 (field_name_new_spec _ (lit "X-Added"))); vm_compute; reflexivity|]. split; [|apply all_bytes; vm_compute; reflexivity].
      destruct (weak_from (lit " 1")) as (Fb & _); [reflexivity..|exact Fb]. }
    assert (result_of rsa_env default_config (sample_zone [short_key_record]) 1003 headers (concat output_chunks) (so_header_name o) (as_bytes (so_header_value o)) r) as Ro.
    { exists short_world, output_chunks, rs, 0%nat. split; [apply sample_world_ok|]. split; [apply sample_steady|]. auto 10. }
    destruct R as (kk & K1 & K2). assert (~ same_name (lit "X-Added") (lit "DKIM-Signature")) as Nd by (vm_compute; discriminate).
    pose proof (examined_on_top default_config (lit "X-Added", lit " 1") headers kk _ Nd K1) as K1'. cbn [fst snd] in K1'.
    destruct (result_given rsa_env default_config (sample_zone [short_key_record]) short_world _ (output_chunks ++ [[13; 10]]) _ _ _ _ (sample_world_ok _ _) (sample_steady _ _) F2 K1') as (r' & Ro').
    exists headers, (so_header_name o), (as_bytes (so_header_value o)), r, r', sig, k, data. cbv zeta.
    split; [exact Ro|]. split; [exact S|]. split; [exact Sg1|]. split; [exact K|]. split; [rewrite Ty, Al; reflexivity|]. split; [rewrite Al; reflexivity|].
    destruct (result_verdict _ _ _ _ _ _ _ _ _ Ro) as (i & Vd & _).
    destruct (verdict_success_record _ _ _ _ _ _ _ _ _ _ Vd S) as (s2 & sig2 & txt & k2 & p & txts & _ & G & Sg2 & _ & P & A & _).
    assert (sig2 = sig) as -> by congruence.
    split. { intros p' P'. pose proof (lookup_pair_det _ _ _ _ P P') as <-. unfold sample_zone in *. destruct (leqb (key_name p) sample_key_name); [|discriminate A]. eexists. reflexivity. }
    split; [rewrite concat_app in Ro'; exact Ro'|].
    split; [exists s, tags; auto|]. split.
    { exists s, tags. split; [exact Sc|]. split; [exact Ev|]. split; [exact Ta|]. split; [exact Sof|].
      destruct Sd' as (v & s' & G1 & G2 & G3). exists v, s'. split; [exact G1|]. split; [exact G2|]. rewrite G3. f_equal.
      symmetry. apply (hash_input_above _ _ headers [_]); [exact F2|]. intros n f In_ [<-|[]] Sn. exfalso. apply Na. exists n. auto. }
    split. { destruct G as (_ & G & _). intros n [<-|[]]. specialize (G _ (or_introl eq_refl)). cbn [map fst]. rewrite occurrences_cons.
      destruct (same_nameb (lit "X-Added") (lit "From")) eqn:Y; [vm_compute in Y; discriminate Y|exact G]. }
    split; [apply kept_on_top; exact Na|].
    unfold body_kept. rewrite Bl. left. apply sb_crlf; intros; [discriminate|reflexivity].
Qed.

(** with an Ed25519 key: a message, and the same with any other body *)
Example C90_ed_example : exists headers body name value r sig k data, let zone := sample_zone [ed_sample_record] in
  result_of ed_env default_config zone 1003 headers body name value r
  /\ vr_status r = Success /\ vr_signature r = Some sig /\ vr_key_record r = Some k
  /\ ed_public_key sha512 ed_sample_key ed_sample_public /\ ed_key_of k ed_sample_public /\ one_record ed_env zone sig
  /\ signed_text ed_env headers name value sig data
  /\ forall body', exists r', result_of ed_env default_config zone 1003 headers body' name value r'.
Proof.
  destruct ed_verified as (o & rs & r & F & V & R & S).
  destruct (real_success _ _ _ _ _ _ _ _ _ _ _ _ _ (sample_world_ok _ _) (sample_steady _ _) F V R) as (_ & X & _).
  destruct (X S) as (sig & k & Sg & K & Va).
  destruct Va as (s & tags & rt & rtags & data & rest & Sc & Ev & Ta & So & _ & (d & sl & txts & _ & _ & Z & I) & Rs & Rt & Rr & _ & _ & _ & Sd & _).
  exists (signature_field o :: sample_headers), (concat output_chunks), (so_header_name o), (as_bytes (so_header_value o)), r, sig, k, data. cbv zeta.
  assert (result_of ed_env default_config (sample_zone [ed_sample_record]) 1003 (signature_field o :: sample_headers) (concat output_chunks)
    (so_header_name o) (as_bytes (so_header_value o)) r) as Ro.
  { exists ed_world, output_chunks, rs, 0%nat. split; [apply sample_world_ok|]. split; [apply sample_steady|]. auto 10. }
  split; [exact Ro|]. split; [exact S|]. split; [exact Sg|]. split; [exact K|]. split; [exact ed_sample_public_key|]. split.
  { destruct ed_sample_read as (k' & K' & T & _ & Da).
    assert (as_bytes rt = as_bytes ed_sample_record) as Eq.
    { unfold sample_zone in Z. destruct (leqb _ _); [|discriminate Z]. injection Z as <-. destruct I as [I|[]]. injection I as <-. reflexivity. }
    apply Utf8Proofs.as_bytes_inj in Eq; [|exact Rs|apply text_b_scalar; vm_compute; reflexivity]. subst rt.
    assert (record_from_str false ed_sample_record = Val (Ok k)) as Rd. { apply RecordProofs.record_ok_iff. exists rtags. split; [apply tags_of_iff; exact Rt|exact Rr]. }
    rewrite K' in Rd. injection Rd as <-. split; [exact T|left; exact Da]. }
  destruct (result_verdict _ _ _ _ _ _ _ _ _ Ro) as (i & Vd & _).
  destruct (verdict_success_record _ _ _ _ _ _ _ _ _ _ Vd S) as (s2 & sig2 & txt & k2 & p & txts2 & _ & G & Sg2 & _ & P & A & _).
  assert (sig2 = sig) as -> by congruence.
  split. { intros p' P'. pose proof (lookup_pair_det _ _ _ _ P P') as <-. unfold sample_zone in A |- *. destruct (leqb (key_name p) sample_key_name); [|discriminate A]. eexists. reflexivity. }
  split; [exists s, tags; auto|]. intros body'. destruct R as (kk & K1 & K2).
  destruct (result_given ed_env default_config (sample_zone [ed_sample_record]) ed_world _ [body'] _ _ _ _ (sample_world_ok _ _) (sample_steady _ _) F K1) as (r' & Ro').
  exists r'. cbn [concat] in Ro'. rewrite app_nil_r in Ro'. exact Ro'.
Qed.
