(** Property C89: what two messages with the same signature have in common. *)

From Coq Require Import String List NArith Permutation.
From Verif Require Import Base Utf8 Canon BodyHash Header TagList Domain Signature KeyRecord Crypto Base64 Format Sign Verify
  SpecText SpecCanon SpecHash SpecHeader SpecTag SpecDomain SpecSig SpecRecord SpecFormat SpecSign SpecOutput SpecVerify SpecEnd SpecDkim SpecCause SpecRsa SpecEd SpecReal SpecUnique
  SpecTransit SpecAuthor
  Concrete SignProofs RsaProofs HeaderProofs HeaderCanonProofs SigProofs VerifyProofs VerifyFacts EndProofs DkimProofs ConcreteProofs RealProofs TransitProofs UniqueProofs UniqueEnd AuthorProofs Lib Sample SampleRsa SampleEd
  PropDomain PropSign PropOutput PropVerify PropEnd PropTransit PropDkim PropRsa PropPrograms PropReal PropEd UniqueSample.
Import ListNotations.
Open Scope N_scope.

(** Two messages verified with the same RSA key record and the same signature: for each
    name, the fields covered by the signature are the same, up to the header
    canonicalization; or two texts with the same digest are at hand. *)
Theorem C89_covered : forall pre m idna config config' headers headers' body body' name name' value value' sig sig' k data data',
  let E := real_env pre m idna in
  idna_ok idna -> verified_under E config headers body name value sig k -> verified_under E config' headers' body' name' value' sig' k ->
  signed_text E headers name value sig data -> signed_text E headers' name' value' sig' data' ->
  s_signature_data sig' = s_signature_data sig -> k_key_type k = Rsa ->
  (forall n, let c := occurrences n (s_signed_headers sig) in
     Forall2 (same_field (c_header (s_canonicalization sig))) (lowest c n headers) (lowest c n headers'))
  \/ collision E (alg_hash (s_algorithm sig)) data data'.
Proof. exact author_covered. Qed.
Print Assumptions C89_covered.

(** Of the names that both configurations do not allow to be left unsigned, all fields
    are the same, in the same order, whatever else was done to the message. *)
Theorem C89_protected : forall pre m idna config config' headers headers' body body' name name' value value' sig sig' k data data',
  let E := real_env pre m idna in
  idna_ok idna -> verified_under E config headers body name value sig k -> verified_under E config' headers' body' name' value' sig' k ->
  signed_text E headers name value sig data -> signed_text E headers' name' value' sig' data' ->
  s_signature_data sig' = s_signature_data sig -> k_key_type k = Rsa ->
  (forall n, among n (cf_headers_forbidden_to_be_unsigned config) -> among n (cf_headers_forbidden_to_be_unsigned config') ->
     Forall2 (same_field (c_header (s_canonicalization sig))) (named n headers) (named n headers'))
  \/ collision E (alg_hash (s_algorithm sig)) data data'.
Proof. exact author_protected. Qed.
Print Assumptions C89_protected.

(** So it is with the author, by default. *)
Theorem C89_author : forall pre m idna headers headers' body body' name name' value value' sig sig' k data data',
  let E := real_env pre m idna in
  idna_ok idna -> verified_under E default_config headers body name value sig k ->
  verified_under E default_config headers' body' name' value' sig' k ->
  signed_text E headers name value sig data -> signed_text E headers' name' value' sig' data' ->
  s_signature_data sig' = s_signature_data sig -> k_key_type k = Rsa ->
  Forall2 (same_field (c_header (s_canonicalization sig))) (named (lit "From") headers) (named (lit "From") headers')
  \/ collision E (alg_hash (s_algorithm sig)) data data'.
Proof.
  intros pre m idna headers headers' body body' name name' value value' sig sig' k data data' E IO V V' D D' S T.
  destruct (author_protected _ _ _ _ _ _ _ _ _ _ _ _ _ _ _ _ _ _ IO V V' D D' S T) as [H|H]; [left|right; exact H].
  apply H; exists (lit "From"); (split; [left; reflexivity|reflexivity]).
Qed.
Print Assumptions C89_author.

(** The bodies are the same as far as they are covered.  If no part was left unsigned,
    they differ only in ways that canonicalization disregards. *)
Theorem C89_body : forall pre m idna config config' headers headers' body body' name name' value value' sig sig' k data data',
  let E := real_env pre m idna in
  idna_ok idna -> verified_under E config headers body name value sig k -> verified_under E config' headers' body' name' value' sig' k ->
  signed_text E headers name value sig data -> signed_text E headers' name' value' sig' data' ->
  s_signature_data sig' = s_signature_data sig -> k_key_type k = Rsa ->
  let alg := c_body (s_canonicalization sig) in
  (covered_body sig body = covered_body sig' body'
   /\ (whole_body config sig -> whole_body config' sig' ->
       canonical_body alg body = canonical_body alg body' /\ same_body alg body body'))
  \/ collision E (alg_hash (s_algorithm sig)) data data'
  \/ collision E (alg_hash (s_algorithm sig)) (covered_body sig body) (covered_body sig' body').
Proof. exact author_body. Qed.
Print Assumptions C89_body.

(** The same with an Ed25519 key that belongs to a private key, where instead of a
    collision there are two texts with SHA-512 values that are the same modulo the order
    of the base point. *)
Theorem C89_ed25519 : forall pre m idna config config' headers headers' body body' name name' value value' sig sig' k data data' key public x x',
  let E := real_env pre m idna in let sha := hash_fn real_crypto in
  idna_ok idna -> verified_under E config headers body name value sig k -> verified_under E config' headers' body' name' value' sig' k ->
  signed_text E headers name value sig data -> signed_text E headers' name' value' sig' data' ->
  s_signature_data sig' = s_signature_data sig -> ed_public_key sha512 key public -> ed_key_of k public ->
  little_endian (sha512 (firstn 32 (s_signature_data sig) ++ public ++ sha (alg_hash (s_algorithm sig)) data)) x ->
  little_endian (sha512 (firstn 32 (s_signature_data sig) ++ public ++ sha (alg_hash (s_algorithm sig')) data')) x' ->
  ((forall n, let c := occurrences n (s_signed_headers sig) in
      Forall2 (same_field (c_header (s_canonicalization sig))) (lowest c n headers) (lowest c n headers'))
   /\ (forall n, among n (cf_headers_forbidden_to_be_unsigned config) -> among n (cf_headers_forbidden_to_be_unsigned config') ->
         Forall2 (same_field (c_header (s_canonicalization sig))) (named n headers) (named n headers'))
   /\ ((covered_body sig body = covered_body sig' body'
        /\ (whole_body config sig -> whole_body config' sig' ->
            canonical_body (c_body (s_canonicalization sig)) body = canonical_body (c_body (s_canonicalization sig)) body'))
       \/ collision E (alg_hash (s_algorithm sig)) (covered_body sig body) (covered_body sig' body')))
  \/ data <> data' /\ x mod ed_order = x' mod ed_order.
Proof.
  intros pre m idna config config' headers headers' body body' name name' value value' sig sig' k data data' key public x x' E sha IO V V' D D' S P K X X'.
  exact (author_ed _ _ _ _ _ _ _ _ _ _ _ _ _ _ _ _ _ _ IO V V' D D' S key public x x' P K X X').
Qed.
Print Assumptions C89_ed25519.

(** ** Example *)

(** two messages as in the theorems: the second has a field on top *)
Example C89_example : exists headers name value sig k data, let headers' := (lit "X-Added", lit " 1") :: headers in
  verified_under rsa_env default_config headers (concat output_chunks) name value sig k
  /\ verified_under rsa_env default_config headers' (concat output_chunks) name value sig k
  /\ signed_text rsa_env headers name value sig data /\ signed_text rsa_env headers' name value sig data
  /\ k_key_type k = Rsa /\ whole_body default_config sig /\ length (named (lit "From") headers) = 1%nat.
Proof.
  assert (Forall is_scalar (lit "Example.com") /\ Forall is_scalar (lit "a-very.long-selector.name")) as (Sd & Ss) by (split; apply sample_scalar).
  assert (domain_text ascii_idna (lit "Example.com") true) as Dd.
  { destruct (DomainProofs.domain_new_spec ascii_idna (lit "Example.com")) as (rd & X & Y). vm_compute in X. injection X as <-. exact (proj2 (proj1 (Y _) eq_refl)). }
  assert (domain_text ascii_idna (lit "a-very.long-selector.name") false) as Ds.
  { destruct (DomainProofs.selector_new_spec ascii_idna (lit "a-very.long-selector.name")) as (rd & X & Y). vm_compute in X. injection X as <-. exact (proj2 (proj1 (Y _) eq_refl)). }
  destruct (real_end_to_end_result false (2^64 - 1) ascii_idna (@rev _) short_world short_n sample_e short_d [] (lit "Example.com") (lit "a-very.long-selector.name")
    sample_headers output_chunks output_chunks short_clock (sample_zone [short_key_record])) as (o & Sg & F & rs & r & V & R & S).
  - exact ascii_idna_ok.
  - exact short_pair.
  - exact short_accepted.
  - apply short_bits.
  - exact Dd.
  - exact Ds.
  - exact Sd.
  - exact Ss.
  - intros l. symmetry. apply Permutation_rev.
  - exact sample_header_fields.
  - exists (lit "From", lit " me@example.com"). split; [right; left; reflexivity|reflexivity].
  - apply sample_world_ok.
  - apply sample_steady.
  - exact short_published.
  - reflexivity.
  - reflexivity.
  - discriminate.
  - reflexivity.
  - reflexivity.
  - set (sk := SkRsa (C := real_crypto) (mkRsaSecret (mkRsaKey short_n sample_e) short_d [])) in *.
    assert (signed_output rsa_env sample_headers output_chunks short_clock 0 (request_new rsa_env (lit "Example.com") (lit "a-very.long-selector.name") RsaSha256 sk) o) as So.
    { split; [apply real_typed|]. split; [exact sample_header_fields|].
      exists (@rev _), [request_new rsa_env (lit "Example.com") (lit "a-very.long-selector.name") RsaSha256 sk], [Ok o].
      split; [constructor; [apply request_new_typed; assumption|constructor]|]. split; [intros l; symmetry; apply Permutation_rev|]. split; [exact Sg|split; reflexivity]. }
    assert (signed_before := eq_refl : (short_clock 0 <? 2 ^ 64 - 1) = true). apply N.ltb_lt in signed_before.
    pose proof (fresh_readable rsa_env _ _ RsaSha256 sk _ _ _ _ _ Sd Ss ltac:(discriminate) signed_before So) as Rd.
    destruct (field_named rsa_env _ _ _ _ _ _ ascii_idna_ok Rd) as (Fn & _).
    destruct (fresh_read rsa_env _ _ _ _ _ _ _ _ _ ascii_idna_ok real_nonempty Rd) as (sig & Rs & Al & Bl & Nm).
    destruct (real_success _ _ _ _ _ _ _ _ _ _ _ _ _ (sample_world_ok _ _) (sample_steady _ _) F V R) as (_ & X & _).
    destruct (X S) as (sig1 & k & Sg1 & K & Va).
    destruct Va as (s & tags & rt & rtags & data & rest & Sc & Ev & Ta & Sof & _ & _ & _ & _ & _ & Ty & _ & _ & Sd' & _).
    assert (signature_read rsa_env (as_bytes (so_header_value o)) s (Ok sig1)) as Rs1.
    { apply sgr_text; [exact Sc|exact Ev|]. apply sig_ok_iff. exists tags. rewrite <- tags_of_iff. auto. }
    destruct (signature_read_det _ _ _ _ _ _ Rs Rs1) as (_ & Eq). injection Eq as <-.
    set (headers := signature_field o :: sample_headers) in *.
    assert (forall names, Forall (fun n => negb (leqb (lower (lit "X-Added")) n) = true) names -> forall n, In (lower n) names -> ~ same_name (lit "X-Added") n) as Q.
    { intros names Fa n In_ Y. rewrite Forall_forall in Fa. specialize (Fa _ In_). unfold same_name in Y. rewrite Y, leqb_refl in Fa. discriminate Fa. }
    assert (Forall (fun n => negb (leqb (lower (lit "X-Added")) n) = true) signed_by_default) as Dn.
    { apply Forall_forall. apply forallb_forall. vm_compute. reflexivity. }
    assert (~ among (lit "X-Added") (s_signed_headers sig)) as Na. { intros (n & In_ & Sn). exact (Q _ Dn n (Nm _ In_) Sn). }
    assert (verified_under rsa_env default_config headers (concat output_chunks) (so_header_name o) (as_bytes (so_header_value o)) sig k) as Vu.
    { exists short_world, (sample_zone [short_key_record]), output_chunks, rs, 0%nat, r. split; [apply sample_world_ok|]. split; [apply sample_steady|]. auto 10. }
    exists headers, (so_header_name o), (as_bytes (so_header_value o)), sig, k, data. cbv zeta.
    assert (header_fields ((lit "X-Added", lit " 1") :: headers)) as F2.
    { constructor; [|exact F]. split; [apply (proj1 (field_name_new_spec _ (lit "X-Added"))); vm_compute; reflexivity|]. split; [|apply all_bytes; vm_compute; reflexivity].
      destruct (weak_from (lit " 1")) as (Fb & _); [reflexivity..|exact Fb]. }
    split; [exact Vu|]. split.
    { apply under_on_top; [exact Vu|exact F2|vm_compute; discriminate|exact Na|].
        intros (n & [<-|[]] & Sn). vm_compute in Sn. discriminate Sn. }
    split; [exists s, tags; auto|]. split.
    { exists s, tags. split; [exact Sc|]. split; [exact Ev|]. split; [exact Ta|]. split; [exact Sof|].
      destruct Sd' as (v & s' & G1 & G2 & G3). exists v, s'. split; [exact G1|]. split; [exact G2|]. rewrite G3. f_equal.
      symmetry. apply (hash_input_above _ _ headers [_]); [exact F2|]. intros n f In_ [<-|[]] Sn. exfalso. apply Na. exists n. auto. }
    split; [rewrite Ty, Al; reflexivity|]. split; [right; exact Bl|].
    assert (named (lit "From") headers = named (lit "From") sample_headers) as ->; [|reflexivity].
    unfold headers, named. cbn [filter]. destruct (same_nameb (fst (signature_field o)) (lit "From")) eqn:Y; [|reflexivity].
    apply HeaderCanonProofs.same_nameb_iff in Y. exfalso. exact (not_from (signature_field o) Fn Y).
Qed.
