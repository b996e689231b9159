(** Property C99: builds of the library. *)

From Coq Require Import String List Permutation.
From Verif Require Import Base Utf8 Base64 Canon BodyHash Header TagList Domain Signature KeyRecord Crypto Format Sign Verify Usize
  SpecText SpecCanon SpecHash SpecHeader SpecTag SpecDomain SpecSig SpecRecord SpecSign SpecOutput SpecVerify SpecEnd SpecDkim SpecBuild
  HeaderProofs DkimProofs BuildProofs Lib Sample PropDomain PropSign PropOutput PropVerify PropEnd PropDkim PropUsize.
Import ListNotations.
Open Scope N_scope.

(** ** C99 *)

(** Two widths: the results are the same, but for a signature whose length is too large
    for the smaller one. *)
Theorem C99_width : forall idna C pre m m' w headers config chunks zone rs rs' i name value r r', m <= m' ->
  world_ok w -> steady (w_resolver w) zone -> header_fields headers ->
  verify_message (build idna C pre m) w headers config chunks = Val (Some rs) -> result_for config headers rs i name value r ->
  verify_message (build idna C pre m') w headers config chunks = Val (Some rs') -> result_for config headers rs' i name value r' ->
  vr_signature r = vr_signature r' /\ (r = r' \/ length_refused m r)
  /\ (forall sig l, vr_signature r = Some sig -> s_body_length sig = Some l -> m < l -> exists e, vr_status r = Failure e
        /\ In e [Policy RequiredHeaderNotSigned; Policy UnsignedHeaderOccurrence; VOverflow]).
Proof. exact width_exact. Qed.
Print Assumptions C99_width.

(** With the counters of the platforms (C82), for bodies that can be counted on both; [checks]
    tells if a build has overflow checks. *)
Theorem C99_counters : forall idna C pre m m' checks checks' w headers config chunks zone rs rs' i name value r r', m <= m' ->
  world_ok w -> steady (w_resolver w) zone -> header_fields headers -> N.of_nat (length (concat chunks)) + 2 <= m ->
  verify_message_usize (build idna C pre m) checks w headers config chunks = Val (Some rs) -> result_for config headers rs i name value r ->
  verify_message_usize (build idna C pre m') checks' w headers config chunks = Val (Some rs') -> result_for config headers rs' i name value r' ->
  vr_signature r = vr_signature r' /\ (r = r' \/ length_refused m r).
Proof.
  intros idna C pre m m' checks checks' w headers config chunks zone rs rs' i name value r r' Le W St Hh B M RF M' RF'.
  rewrite C82_verifying_partial in M by exact B. rewrite C82_verifying_partial in M' by (cbn [env_usize_max build]; lia).
  destruct (C99_width idna C pre m m' w headers config chunks zone rs rs' i name value r r' Le W St Hh M RF M' RF') as (H1 & H2 & _). auto.
Qed.
Print Assumptions C99_counters.

Theorem C99_same : forall idna C pre m m' w headers config chunks zone rs, m <= m' ->
  world_ok w -> steady (w_resolver w) zone -> header_fields headers ->
  verify_message (build idna C pre m) w headers config chunks = Val (Some rs) ->
  (forall r, In r rs -> vr_status r <> Failure VOverflow) ->
  verify_message (build idna C pre m') w headers config chunks = Val (Some rs).
Proof. exact width_same. Qed.
Print Assumptions C99_same.

(** The feature: which signatures are read, and what is said of those that are not. *)
Theorem C99_feature : forall idna C m m' w headers config chunks zone rs rs' i name value r r',
  world_ok w -> steady (w_resolver w) zone -> header_fields headers ->
  verify_message (build idna C false m) w headers config chunks = Val (Some rs) -> result_for config headers rs i name value r ->
  verify_message (build idna C true m') w headers config chunks = Val (Some rs') -> result_for config headers rs' i name value r' ->
  (forall sig, vr_signature r = Some sig <-> vr_signature r' = Some sig /\ s_algorithm sig <> RsaSha1)
  /\ (forall sig, vr_signature r' = Some sig -> s_algorithm sig = RsaSha1 ->
        exists e, vr_status r = Failure (DkimSignatureFormat e) /\ se_kind e = EHistoricAlgorithm).
Proof. exact feature_exact. Qed.
Print Assumptions C99_feature.

(** The signatures that verify without it are those that verify with it, are not made with
    SHA-1, and are confirmed by a key of 1024 bits or more. *)
Theorem C99_success : forall idna C m w headers config chunks zone rs rs' i name value r r',
  world_ok w -> steady (w_resolver w) zone -> header_fields headers ->
  verify_message (build idna C false m) w headers config chunks = Val (Some rs) -> result_for config headers rs i name value r ->
  verify_message (build idna C true m) w headers config chunks = Val (Some rs') -> result_for config headers rs' i name value r' ->
  let valid := valid_dkim (build idna C true m) canonical_body zone config (w_clock w i) headers (concat chunks) name value in
  (vr_status r = Success <-> exists sig k, valid sig k /\ s_algorithm sig <> RsaSha1 /\ key_of_1024 idna C k)
  /\ (vr_status r' = Success <-> exists sig k, valid sig k).
Proof.
  intros idna C m w headers config chunks zone rs rs' i name value r r' W St Hh M RF M' RF' valid.
  split; [eapply feature_success; eassumption|]. eapply C73_exact; eassumption.
Qed.
Print Assumptions C99_success.

(** Signing: the feature changes nothing, and the width only for requests with a length that
    is too large. *)
Theorem C99_signing : forall idna C pre m pre' m' order headers rs chunks clock, m <= m' ->
  let E := build idna C pre m in
  let E' := build idna C pre' m' in
  sign_message E' order headers (map (moved idna C pre m pre' m') rs) chunks clock = sign_message E order headers rs chunks clock
  \/ sign_message E order headers rs chunks clock = Val (Err ReqOverflow)
     /\ exists r n, In r rs /\ r_body_length E r = ExactLen n /\ m < n.
Proof. intros idna C pre m pre' m' order headers rs chunks clock Le. apply signing_widths. exact Le. Qed.
Print Assumptions C99_signing.

(** A message signed with the library in one build verifies in another (compare C37). *)
Theorem C99_interop : forall idna C pre m pre' m' w config headers above below chunks chunks' clock j r o zone rs res,
  idna_ok idna -> crypto_nonempty C -> readable_output (build idna C pre m) headers chunks clock j r o ->
  (r_algorithm (build idna C pre m) r = RsaSha1 -> pre' = true) ->
  let E' := build idna C pre' m' in
  let r' := moved idna C pre m pre' m' r in
  let extra := above ++ signature_field o :: below in
  not_oversigned (s_signed_headers (so_signature o)) headers extra -> concat chunks' = concat chunks ->
  signature_good E' (extra ++ headers) config (w_clock w (length above)) (so_signature o) ->
  content_covered E' r' config (concat chunks) -> key_published E' r' config (fun p => zone (key_name p)) ->
  world_ok w -> steady (w_resolver w) zone -> header_fields (extra ++ headers) ->
  verify_message E' w (extra ++ headers) config chunks' = Val (Some rs) ->
  result_for config (extra ++ headers) rs (length above) (so_header_name o) (as_bytes (so_header_value o)) res ->
  vr_status res = Success.
Proof. exact interop. Qed.
Print Assumptions C99_interop.

(** A signature made in one build, by whatever program, verifies in another, under the conditions of C74 there. *)
Theorem C99_signed : forall idna C pre m pre' m' w config headers above below body chunks name s sig zone rs r key vkey txt k,
  signed_by (build idna C pre m) canonical_body key headers body name s sig -> (s_algorithm sig = RsaSha1 -> pre' = true) ->
  let E := build idna C pre' m' in
  let extra := above ++ (name, as_bytes s) :: below in
  world_ok w -> steady (w_resolver w) zone -> header_fields (extra ++ headers) ->
  not_oversigned (s_signed_headers sig) headers extra -> concat chunks = body ->
  signature_good E (extra ++ headers) config (w_clock w (length above)) sig ->
  (cf_forbid_unsigned_content config = true -> body_hashed E canonical_body sig body []) ->
  published E zone sig txt -> key_for E sig config txt k vkey -> keys_match E key vkey ->
  verify_message E w (extra ++ headers) config chunks = Val (Some rs) ->
  result_for config (extra ++ headers) rs (length above) name (as_bytes s) r ->
  vr_status r = Success /\ vr_signature r = Some sig.
Proof.
  intros idna C pre m pre' m' w config headers above below body chunks name s sig zone rs r key vkey txt k Sg A.
  apply (signed_by_any (build idna C pre' m')). apply (signed_build idna C pre m). exact Sg. exact A.
Qed.
Print Assumptions C99_signed.

(** ** Examples *)

(** a signature of the first two bytes of the body, with key [k] *)
Definition old_start (alg : string) (h : HashAlg) : str :=
  lit " v=1; a=" ++ lit alg ++ lit "; d=example.com; s=a-very.long-selector.name; h=From; l=2; c=simple; bh="
  ++ encode_base64 (toy_hash h (firstn 2 (concat output_chunks))) ++ lit "; b=".
Definition old_value (alg : string) (h : HashAlg) (k : N) : str :=
  let data := header_hash_input Simple sample_headers [lit "From"] ++ canonical_field Simple (lit "DKIM-Signature", old_start alg h) in
  match rsa_sign sized_crypto h k (toy_hash h data) with
  | Some b => old_start alg h ++ encode_base64 b
  | None => []
  end.
Definition old_headers (v : str) : list HeaderField := (lit "DKIM-Signature", as_bytes v) :: sample_headers.
Definition lax_config : Config := mkConfig 10 10 [] [] 512 true false false false 0 None.
Definition old_status (pre : bool) (m : N) (v : str) (record : str) : option VerificationStatus :=
  match verify_message (build ascii_idna sized_crypto pre m) (sample_world 20 [record]) (old_headers v) lax_config output_chunks with
  | Val (Some [r]) => Some (match vr_status r with
                            | Failure (DkimSignatureFormat e) => Failure (DkimSignatureFormat (mkSigError (se_kind e) None None None None None))
                            | s => s
                            end)
  | _ => None
  end.

(** a key of 1792 bits, and one of 768 bits *)
Example C99_example :
  let good := old_value "rsa-sha256" Sha256 7 in
  let small := old_value "rsa-sha256" Sha256 3 in
  let sha1 := old_value "rsa-sha1" Sha1 7 in
  let k7 := lit "p=AQc=" in
  let k3 := lit "p=AQM=" in
  header_fields (old_headers good) /\ header_fields (old_headers small) /\ header_fields (old_headers sha1)
  /\ old_status false 2 good k7 = Some Success /\ old_status true 2 good k7 = Some Success
  /\ old_status false 1 good k7 = Some (Failure VOverflow) /\ old_status true 1 good k7 = Some (Failure VOverflow)
  /\ old_status false 2 small k3 = Some (Failure (VerificationFailure InsufficientKeySize)) /\ old_status true 2 small k3 = Some Success
  /\ old_status false 2 sha1 k7 = Some (Failure (DkimSignatureFormat (mkSigError EHistoricAlgorithm None None None None None)))
  /\ old_status true 2 sha1 k7 = Some Success
  /\ old_status true 1 sha1 k7 = Some (Failure VOverflow).
Proof.
  intros good small sha1 k7 k3.
  split; [apply foreign_fields; vm_compute; reflexivity|]. split; [apply foreign_fields; vm_compute; reflexivity|]. split; [apply foreign_fields; vm_compute; reflexivity|].
  repeat split; vm_compute; reflexivity.
Qed.

(** made without the feature, verified with it, on a small platform *)
Example C99_signed_example :
  let extra := [(lit "Received", lit " by y"); (lit "DKIM-Signature", as_bytes foreign_relaxed); (lit "X", [])] in
  let E := build ascii_idna sized_crypto true 255 in
  signed_by (build ascii_idna sized_crypto false u64_max) canonical_body (SkRsa (C := sized_crypto) 7) sample_headers (concat output_chunks)
    (lit "DKIM-Signature") foreign_relaxed (foreign_sig foreign_relaxed)
  /\ s_algorithm (foreign_sig foreign_relaxed) <> RsaSha1
  /\ not_oversigned (s_signed_headers (foreign_sig foreign_relaxed)) sample_headers extra
  /\ signature_good E (extra ++ sample_headers) default_config 1003 (foreign_sig foreign_relaxed)
  /\ published E (sample_zone good_records) (foreign_sig foreign_relaxed) (as_bytes (lit "p=AQc="))
  /\ match verify_message E (sample_world 20 good_records) (extra ++ sample_headers) default_config output_chunks with
     | Val (Some rs) => map vr_status rs = [Success]
     | _ => False
     end.
Proof.
  intros extra E. split; [apply relaxed_signed; intros []; vm_compute; reflexivity|]. split; [vm_compute; discriminate|].
  split. { intros n f Hn Hf S. exfalso. vm_compute in Hn. destruct Hf as [<-|[<-|[<-|[]]]]; vm_compute in S; destruct Hn as [<-|[<-|[<-|[]]]]; discriminate S. }
  split. { destruct (foreign_good (extra ++ sample_headers) (foreign_sig foreign_relaxed)) as (G1 & G2 & _ & G4); [vm_compute; reflexivity..|].
    split; [exact G1|]. split; [exact G2|]. split; [|exact G4]. intros l X. vm_compute in X. discriminate X. }
  split; [apply sample_pub; vm_compute; reflexivity|]. vm_compute. reflexivity.
Qed.

Definition exact_request (m n : N) : SignRequest (build ascii_idna sized_crypto false m) :=
  mkRequest (build ascii_idna sized_crypto false m) (SkRsa (C := sized_crypto) 7) RsaSha256 (mkCanon Relaxed Relaxed) (lit "example.com") Auto
    None (ExactLen n) (lit "a-very.long-selector.name") TsNow None false [] default_format.

Example C99_signing_example :
  sign_message (build ascii_idna sized_crypto false 2) (@rev _) sample_headers [exact_request 2 2; exact_request 2 3] output_chunks (fun _ => 1000) = Val (Err ReqOverflow)
  /\ match sign_message (build ascii_idna sized_crypto true 3) (@rev _) sample_headers
             (map (moved ascii_idna sized_crypto false 2 true 3) [exact_request 2 2; exact_request 2 3]) output_chunks (fun _ => 1000) with
     | Val (Ok [Ok _; Ok _]) => True
     | _ => False
     end.
Proof. split; [vm_compute; reflexivity|vm_compute; exact I]. Qed.

(** signed without the feature, verified with it, on a small platform *)
Example C99_interop_example :
  let E' := build ascii_idna sized_crypto true 255 in
  let r' := moved ascii_idna sized_crypto false u64_max true 255 output_request in
  let extra := [] ++ signature_field output_sample :: [] in
  readable_output (build ascii_idna sized_crypto false u64_max) sample_headers output_chunks (fun _ => 1000) 0 output_request output_sample
  /\ r_algorithm ascii_env output_request <> RsaSha1
  /\ signature_good E' (extra ++ sample_headers) default_config 1003 (so_signature output_sample)
  /\ key_published E' r' default_config (fun p => sample_zone good_records (key_name p))
  /\ match verify_message E' (sample_world 20 good_records) (extra ++ sample_headers) default_config output_chunks with
     | Val (Some [res]) => vr_status res = Success
     | _ => False
     end.
Proof.
  intros E' r' extra. split; [exact output_readable|]. split; [discriminate|].
  split. { destruct (sample_good (extra ++ sample_headers) (so_signature output_sample)) as (G1 & G2 & G3 & G4); try (vm_compute; reflexivity); try (intros x X; vm_compute in X; injection X as <-; reflexivity).
    split; [exact G1|]. split; [exact G2|]. split; [|exact G4]. intros l X. vm_compute in X. injection X as <-. vm_compute. discriminate. }
  split; [|vm_compute; reflexivity].
  exists (lit "example.com"), (lit "a-very.long-selector.name"), (map (fun r => Ok (as_bytes r)) good_records), (Ok (as_bytes (lit "p=AQc="))).
  split; [vm_compute; reflexivity|]. split; [vm_compute; reflexivity|]. split; [vm_compute; reflexivity|]. split; [vm_compute; auto|].
  destruct (record_from_str true (lit "p=AQc=")) as [[k|]|] eqn:K; [|vm_compute in K; discriminate K..]. pose proof K as K0. vm_compute in K0. injection K0 as <-.
  eexists (lit "p=AQc="), _, (VkRsa (C := sized_crypto) 7). split; [apply rt_ok; apply text_b_scalar; vm_compute; reflexivity|]. split; [exact K|].
  split; [reflexivity|]. split; [discriminate|]. split; [left; reflexivity|]. split; [intros []|].
  split; [apply ki_spki; vm_compute; reflexivity|]. split; [intros pk X; injection X as <-; vm_compute; discriminate|exact sample_keys].
Qed.
