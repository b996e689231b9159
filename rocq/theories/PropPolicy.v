(** Properties C47 to C51: policy. *)

From Coq Require Import String List.
From Verif Require Import Base Utf8 Canon BodyHash Header Domain Signature KeyRecord Crypto TagList Format Sign Verify
  SpecText SpecCanon SpecHash SpecHeader SpecTag SpecDomain SpecSig SpecRecord SpecFormat SpecSign SpecOutput SpecVerify
  SigProofs VerifyFacts PolicyProofs Lib Sample PropDomain PropSign PropOutput PropVerify.
Import ListNotations.
Open Scope N_scope.

(** the second result of the sample, for the first good signature *)
Definition sample_result (config : Config) (records : list str) : VerificationResult :=
  nth 1 (sample_results config records) (mkVResult Success 0 None None).

Lemma sample_result_for : forall config records, cf_max_signatures config = 10%nat ->
  nth_error (sample_results config records) 1 = Some (sample_result config records) ->
  result_for config signed_headers (sample_results config records) 1 (fst good_field) (snd good_field) (sample_result config records).
Proof.
  intros config records H K. exists 1%nat. split; [|exact K]. unfold examined. rewrite H. vm_compute. reflexivity.
Qed.

(** ** C47 *)

Theorem C47_required : forall E w headers config chunks answer rs i name value r,
  evaluation E w headers config chunks answer rs -> result_for config headers rs i name value r ->
  (vr_status r = Failure (Policy RequiredHeaderNotSigned) <->
   exists s sig, signature_read E value s (Ok sig) /\ required_missing config sig).
Proof.
  intros E w headers config chunks answer rs i name value r Ev R. destruct (evaluation_verdict _ _ _ _ _ _ _ _ _ _ _ Ev R) as (V & _).
  rewrite (early_status _ _ _ _ _ _ _ _ _ _ _ V) by (cbn; tauto). unfold signature_checks.
  split; intros (s & sig & H & F); exists s, sig; (split; [exact H|]).
  - apply first_of_cons_some in F as [[F _]|[_ F]]; [exact F|]. exfalso. apply first_of_in in F. cbn in F. intuition discriminate.
  - apply first_of_cons_some. auto.
Qed.
Print Assumptions C47_required.

Theorem C47_unsigned : forall E w headers config chunks answer rs i name value r,
  evaluation E w headers config chunks answer rs -> result_for config headers rs i name value r ->
  (vr_status r = Failure (Policy UnsignedHeaderOccurrence) <->
   exists s sig, signature_read E value s (Ok sig) /\ ~ required_missing config sig /\ unsigned_occurrence headers config sig).
Proof.
  intros E w headers config chunks answer rs i name value r Ev R. destruct (evaluation_verdict _ _ _ _ _ _ _ _ _ _ _ Ev R) as (V & _).
  rewrite (early_status _ _ _ _ _ _ _ _ _ _ _ V) by (cbn; tauto). unfold signature_checks.
  split; intros (s & sig & H & F); exists s, sig; (split; [exact H|]).
  - apply first_of_cons_some in F as [[_ F]|[F1 F]]; [discriminate F|]. split; [exact F1|].
    apply first_of_cons_some in F as [[F _]|[_ F]]; [exact F|]. exfalso. apply first_of_in in F. cbn in F. intuition discriminate.
  - apply first_of_cons_some. right. split; [apply F|]. apply first_of_cons_some. left. split; [apply F|reflexivity].
Qed.
Print Assumptions C47_unsigned.

(** requiring a header that is not signed, with and without the message having two From fields *)
Definition require (names : list FieldName) : Config := mkConfig 10 10 names [lit "From"; lit "Subject"] 1024 false false false false 300 None.

Example C47_example :
  evaluation ascii_env (sample_world 20 good_records) signed_headers (require [lit "to"; lit "X-Other"]) output_chunks
    (fun p => sample_zone good_records (key_name p)) (sample_results (require [lit "to"; lit "X-Other"]) good_records)
  /\ result_for (require [lit "to"; lit "X-Other"]) signed_headers (sample_results (require [lit "to"; lit "X-Other"]) good_records)
       1 (fst good_field) (snd good_field) (sample_result (require [lit "to"; lit "X-Other"]) good_records)
  /\ vr_status (sample_result (require [lit "to"; lit "X-Other"]) good_records) = Failure (Policy RequiredHeaderNotSigned)
  /\ vr_status (sample_result (require [lit "FROM"]) good_records) = Success
  /\ vr_status (match verify_message ascii_env (sample_world 20 good_records) (signed_headers ++ [(lit "subject", lit " x")]) (require []) output_chunks with
                | Val (Some rs) => nth 1 rs (mkVResult Success 0 None None) | _ => mkVResult Success 0 None None end)
     = Failure (Policy UnsignedHeaderOccurrence).
Proof.
  split; [apply sample_evaluation; vm_compute; reflexivity|]. split; [apply sample_result_for; vm_compute; reflexivity|].
  repeat split; vm_compute; reflexivity.
Qed.

(** ** C48 *)

Theorem C48_expired : forall E w headers config chunks answer rs i name value r,
  evaluation E w headers config chunks answer rs -> result_for config headers rs i name value r ->
  let now := match cf_fixed_system_time config with Some t => t | None => w_clock w i end in
  (vr_status r = Failure (Policy SignatureExpired) <->
   exists s sig x, signature_read E value s (Ok sig)
     /\ ~ required_missing config sig /\ ~ unsigned_occurrence headers config sig /\ ~ length_unusable E sig
     /\ cf_allow_expired config = false /\ s_expiration sig = Some x
     /\ N.min (x + cf_time_tolerance config) (2^64 - 1) <= now).
Proof.
  intros E w headers config chunks answer rs i name value r Ev R now. destruct (evaluation_verdict _ _ _ _ _ _ _ _ _ _ _ Ev R) as (V & _).
  rewrite (early_status _ _ _ _ _ _ _ _ _ _ _ V) by (cbn; tauto). unfold signature_checks.
  split.
  - intros (s & sig & H & F). apply first_of_cons_some in F as [[_ F]|[F1 F]]; [discriminate F|].
    apply first_of_cons_some in F as [[_ F]|[F2 F]]; [discriminate F|]. apply first_of_cons_some in F as [[_ F]|[F3 F]]; [discriminate F|].
    apply first_of_cons_some in F as [[(A & x & X & Y) _]|[_ F]]; [|exfalso; apply first_of_in in F; cbn in F; intuition discriminate].
    exists s, sig, x. auto 10.
  - intros (s & sig & x & H & F1 & F2 & F3 & A & X & Y). exists s, sig. split; [exact H|]. do 3 (apply fo_next; [assumption|]). apply fo_here.
    split; [exact A|]. exists x. auto.
Qed.
Print Assumptions C48_expired.

Theorem C48_in_future : forall E w headers config chunks answer rs i name value r,
  evaluation E w headers config chunks answer rs -> result_for config headers rs i name value r ->
  let now := match cf_fixed_system_time config with Some t => t | None => w_clock w i end in
  (vr_status r = Failure (Policy TimestampInFuture) <->
   exists s sig t, signature_read E value s (Ok sig)
     /\ ~ required_missing config sig /\ ~ unsigned_occurrence headers config sig /\ ~ length_unusable E sig
     /\ ~ expired config (w_clock w i) sig
     /\ cf_allow_timestamp_in_future config = false /\ s_timestamp sig = Some t
     /\ now + cf_time_tolerance config < t).
Proof.
  intros E w headers config chunks answer rs i name value r Ev R now. destruct (evaluation_verdict _ _ _ _ _ _ _ _ _ _ _ Ev R) as (V & _).
  rewrite (early_status _ _ _ _ _ _ _ _ _ _ _ V) by (cbn; tauto). unfold signature_checks.
  split.
  - intros (s & sig & H & F). apply first_of_cons_some in F as [[_ F]|[F1 F]]; [discriminate F|].
    apply first_of_cons_some in F as [[_ F]|[F2 F]]; [discriminate F|]. apply first_of_cons_some in F as [[_ F]|[F3 F]]; [discriminate F|].
    apply first_of_cons_some in F as [[_ F]|[F4 F]]; [discriminate F|].
    apply first_of_cons_some in F as [[(A & x & X & Y) _]|[_ F]]; [|exfalso; apply first_of_in in F; cbn in F; intuition discriminate].
    exists s, sig, x. auto 10.
  - intros (s & sig & x & H & F1 & F2 & F3 & F4 & A & X & Y). exists s, sig. split; [exact H|]. do 4 (apply fo_next; [assumption|]). apply fo_here.
    split; [exact A|]. exists x. auto.
Qed.
Print Assumptions C48_in_future.

(** [l=] beyond what the machine can address *)
Theorem C48_length : forall E w headers config chunks answer rs i name value r,
  evaluation E w headers config chunks answer rs -> result_for config headers rs i name value r ->
  (vr_status r = Failure VOverflow <->
   exists s sig l, signature_read E value s (Ok sig)
     /\ ~ required_missing config sig /\ ~ unsigned_occurrence headers config sig
     /\ s_body_length sig = Some l /\ env_usize_max E < l).
Proof.
  intros E w headers config chunks answer rs i name value r Ev R. destruct (evaluation_verdict _ _ _ _ _ _ _ _ _ _ _ Ev R) as (V & _).
  rewrite (early_status _ _ _ _ _ _ _ _ _ _ _ V) by (cbn; tauto). unfold signature_checks.
  split.
  - intros (s & sig & H & F). apply first_of_cons_some in F as [[_ F]|[F1 F]]; [discriminate F|].
    apply first_of_cons_some in F as [[_ F]|[F2 F]]; [discriminate F|].
    apply first_of_cons_some in F as [[(l & X & Y) _]|[_ F]]; [|exfalso; apply first_of_in in F; cbn in F; intuition discriminate].
    exists s, sig, l. auto 10.
  - intros (s & sig & l & H & F1 & F2 & X & Y). exists s, sig. split; [exact H|]. do 2 (apply fo_next; [assumption|]). apply fo_here.
    exists l. auto.
Qed.
Print Assumptions C48_length.

(** the sample is signed at 1000, to expire at 1009 *)
Definition at_time (now tolerance : N) (allow_expired allow_future : bool) : Config :=
  mkConfig 10 10 [] [lit "From"] 1024 false false allow_expired allow_future tolerance (Some now).

(** The sum is capped, which makes no difference before the end of time. *)
Theorem C48_expired_partial : forall E w headers config chunks answer rs i name value r,
  evaluation E w headers config chunks answer rs -> result_for config headers rs i name value r ->
  let now := match cf_fixed_system_time config with Some t => t | None => w_clock w i end in
  now < 2^64 - 1 ->
  (vr_status r = Failure (Policy SignatureExpired) <->
   exists s sig x, signature_read E value s (Ok sig)
     /\ ~ required_missing config sig /\ ~ unsigned_occurrence headers config sig /\ ~ length_unusable E sig
     /\ cf_allow_expired config = false /\ s_expiration sig = Some x /\ x + cf_time_tolerance config <= now).
Proof.
  intros E w headers config chunks answer rs i name value r Ev R now L. rewrite (C48_expired _ _ _ _ _ _ _ _ _ _ _ Ev R). fold now.
  split; intros (s & sig & x & A & B & C & D & F & G & X); exists s, sig, x; repeat (split; [assumption|]); lia.
Qed.
Print Assumptions C48_expired_partial.

Theorem C48_expired_refuted : ~ forall E w headers config chunks answer rs i name value r sig x,
  evaluation E w headers config chunks answer rs -> result_for config headers rs i name value r ->
  let now := match cf_fixed_system_time config with Some t => t | None => w_clock w i end in
  vr_status r = Failure (Policy SignatureExpired) -> vr_signature r = Some sig -> s_expiration sig = Some x ->
  x + cf_time_tolerance config <= now.
Proof.
  intros H. set (c := at_time u64_max u64_max false false).
  pose proof (sample_evaluation c good_records ltac:(vm_compute; reflexivity)) as Ev.
  pose proof (sample_result_for c good_records eq_refl ltac:(vm_compute; reflexivity)) as R.
  pose proof (fun sig => H _ _ _ _ _ _ _ _ _ _ _ sig 1009 Ev R) as X. cbv zeta in X.
  destruct (vr_signature (sample_result c good_records)) as [sig|] eqn:S; [|vm_compute in S; discriminate S].
  specialize (X sig ltac:(vm_compute; reflexivity) eq_refl). vm_compute in S. injection S as <-.
  specialize (X eq_refl). cbn [cf_time_tolerance cf_fixed_system_time c at_time] in X. unfold u64_max in X. lia.
Qed.
Print Assumptions C48_expired_refuted.

Example C48_example :
  evaluation ascii_env (sample_world 20 good_records) signed_headers (at_time 1010 1 false false) output_chunks
    (fun p => sample_zone good_records (key_name p)) (sample_results (at_time 1010 1 false false) good_records)
  /\ result_for (at_time 1010 1 false false) signed_headers (sample_results (at_time 1010 1 false false) good_records)
       1 (fst good_field) (snd good_field) (sample_result (at_time 1010 1 false false) good_records)
  /\ map (fun c => vr_status (sample_result c good_records))
       [at_time 1009 1 false false; at_time 1010 1 false false; at_time 1010 1 true false;
        at_time 997 3 false false; at_time 996 3 false false; at_time 996 3 false true]
     = [Success; Failure (Policy SignatureExpired); Success; Success; Failure (Policy TimestampInFuture); Success].
Proof.
  split; [apply sample_evaluation; vm_compute; reflexivity|]. split; [apply sample_result_for; vm_compute; reflexivity|].
  vm_compute. reflexivity.
Qed.

(** ** C49 *)

(** What a success says about key and algorithm. *)
Theorem C49_key_partial : forall E w headers config chunks answer rs i name value r,
  evaluation E w headers config chunks answer rs -> result_for config headers rs i name value r ->
  vr_status r = Success ->
  exists sig k key, vr_signature r = Some sig /\ vr_key_record r = Some k
    /\ key_in E (k_key_type k) (k_key_data k) key
    /\ (forall pk, key = VkRsa pk ->
          (if env_pre E then 512 else 1024) <= rsa_size (env_crypto E) pk * 8
          /\ cf_min_key_bits config <= rsa_size (env_crypto E) pk * 8)
    /\ k_key_type k = key_type_for (s_algorithm sig)
    /\ In (alg_hash (s_algorithm sig)) (k_hash_algorithms k)
    /\ (In NoSubdomains (k_flags k) -> forall identity, s_identity sig = Some identity ->
          idna_to_ascii (env_idna E) (id_domain identity) = idna_to_ascii (env_idna E) (s_domain sig))
    /\ k_key_data k <> []
    /\ (env_pre E = false \/ cf_allow_sha1 config = false -> alg_hash (s_algorithm sig) = Sha256).
Proof.
  intros E w headers config chunks answer rs i name value r Ev R S. destruct (evaluation_verdict _ _ _ _ _ _ _ _ _ _ _ Ev R) as (V & _).
  destruct (verdict_success_record _ _ _ _ _ _ _ _ _ _ V S) as (s & sig & txt & k & p & txts & H1 & G & H2 & H3 & _ & _ & _ & A & _).
  destruct A as (s' & key & _ & _ & A1 & A2 & A3 & A4 & A5 & A6 & _). exists sig, k, key. split; [exact H2|]. split; [exact H3|]. split; [exact A5|].
  split; [intros pk X; specialize (A6 pk X); lia|]. split; [exact A1|]. split; [exact A3|]. split; [exact A4|]. split; [exact A2|].
  intros [P|P].
  - apply signature_read_parse in H1. apply sig_invariants in H1 as (_ & _ & _ & _ & _ & _ & _ & _ & _ & H1). specialize (H1 P).
    destruct (s_algorithm sig); cbn; congruence.
  - apply G. exact P.
Qed.
Print Assumptions C49_key_partial.

(** a key of 1024 bits, a restriction on hashes, a revoked key *)
Definition min_bits (n : N) : Config := mkConfig 10 10 [] [lit "From"] n false false false false 300 None.

Example C49_example :
  evaluation ascii_env (sample_world 20 good_records) signed_headers (min_bits 1792) output_chunks
    (fun p => sample_zone good_records (key_name p)) (sample_results (min_bits 1792) good_records)
  /\ result_for (min_bits 1792) signed_headers (sample_results (min_bits 1792) good_records)
       1 (fst good_field) (snd good_field) (sample_result (min_bits 1792) good_records)
  /\ vr_status (sample_result (min_bits 1792) good_records) = Success
  /\ vr_status (sample_result (min_bits 1793) good_records) = Failure (Policy KeyTooSmall)
  /\ map (fun t => vr_status (sample_result default_config [t])) [lit "p="; lit "t=s; p=AQc="; lit "k=ed25519; p=AQc="; lit "p=AQM="]
     = [Failure KeyRevoked; Failure VDomainMismatch; Failure WrongKeyType; Failure (VerificationFailure InsufficientKeySize)].
Proof.
  split; [apply sample_evaluation; vm_compute; reflexivity|]. split; [apply sample_result_for; vm_compute; reflexivity|].
  repeat split; vm_compute; reflexivity.
Qed.

(** ** C50 *)

(** With unsigned content forbidden, the signature's hash is over the whole body. *)
Theorem C50_forbidden : forall E w headers config chunks answer rs i name value r,
  evaluation E w headers config chunks answer rs -> result_for config headers rs i name value r ->
  cf_forbid_unsigned_content config = true -> vr_status r = Success ->
  exists sig, vr_signature r = Some sig
    /\ hash_fn (env_crypto E) (alg_hash (s_algorithm sig)) (canonical_body (c_body (s_canonicalization sig)) (concat chunks)) = s_body_hash sig
    /\ forall l, s_body_length sig = Some l ->
         l = N.of_nat (length (canonical_body (c_body (s_canonicalization sig)) (concat chunks))).
Proof.
  intros E w headers config chunks answer rs i name value r Ev R F S. destruct (evaluation_verdict _ _ _ _ _ _ _ _ _ _ _ Ev R) as (V & _).
  destruct (verdict_success_record _ _ _ _ _ _ _ _ _ _ V S) as (s & sig & txt & k & p & txts & _ & _ & H & _ & _ & _ & _ & _ & B).
  exists sig. split; [exact H|]. unfold body_matches in B. destruct (s_body_length sig) as [l|].
  - destruct B as (c & rest & B1 & B2 & B3 & B4). rewrite (B4 F), app_nil_r in B1. rewrite B1. split; [exact B3|]. intros l' [= <-]. auto.
  - split; [exact B|]. discriminate.
Qed.
Print Assumptions C50_forbidden.

(** Else, content beyond l= makes no difference. *)
Theorem C50_beyond : forall E w w' headers config chunks chunks' answer rs rs' i name value r r' s sig l covered rest rest',
  evaluation E w headers config chunks answer rs -> result_for config headers rs i name value r ->
  evaluation E w' headers config chunks' answer rs' -> result_for config headers rs' i name value r' ->
  w_clock w i = w_clock w' i ->
  cf_forbid_unsigned_content config = false ->
  signature_read E value s (Ok sig) -> s_body_length sig = Some l -> N.of_nat (length covered) = l ->
  canonical_body (c_body (s_canonicalization sig)) (concat chunks) = covered ++ rest ->
  canonical_body (c_body (s_canonicalization sig)) (concat chunks') = covered ++ rest' ->
  r = r'.
Proof.
  intros E w w' headers config chunks chunks' answer rs rs' i name value r r' s sig l covered rest rest' Ev R Ev' R' W F H L N B B'.
  destruct (evaluation_verdict _ _ _ _ _ _ _ _ _ _ _ Ev R) as (V & _). destruct (evaluation_verdict _ _ _ _ _ _ _ _ _ _ _ Ev' R') as (V' & _).
  rewrite <- W in V'. eapply verdict_body; [exact H|exact V|exact V'|]. eapply body_status_covered; eassumption.
Qed.
Print Assumptions C50_beyond.

(** in particular, content appended after a complete line *)
Theorem C50_appended : forall E w w' headers config body extra chunks' answer rs rs' i name value r r' s sig l,
  evaluation E w headers config [body ++ [13; 10]] answer rs -> result_for config headers rs i name value r ->
  evaluation E w' headers config chunks' answer rs' -> result_for config headers rs' i name value r' ->
  concat chunks' = body ++ [13; 10] ++ extra ->
  w_clock w i = w_clock w' i ->
  cf_forbid_unsigned_content config = false ->
  signature_read E value s (Ok sig) -> s_body_length sig = Some l ->
  l <= N.of_nat (length (canonical_body (c_body (s_canonicalization sig)) (body ++ [13; 10]))) ->
  r = r'.
Proof.
  intros E w w' headers config body extra chunks' answer rs rs' i name value r r' s sig l Ev R Ev' R' X W F H L B.
  destruct (canonical_prefix (c_body (s_canonicalization sig)) body extra) as (more & M).
  set (cb := canonical_body _ (body ++ [13; 10])) in *.
  apply (C50_beyond E w w' headers config [body ++ [13; 10]] chunks' answer rs rs' i name value r r' s sig l
    (firstn (N.to_nat l) cb) (skipn (N.to_nat l) cb) (skipn (N.to_nat l) cb ++ more)); try assumption.
  - rewrite firstn_length. lia.
  - cbn [concat]. rewrite app_nil_r, firstn_skipn. reflexivity.
  - rewrite X, app_assoc, M, app_assoc, firstn_skipn. reflexivity.
Qed.
Print Assumptions C50_appended.

(** the sample has an l= tag *)
Definition forbid_unsigned (b : bool) : Config := mkConfig 10 10 [] [lit "From"] 1024 false b false false 300 None.
Definition extended (b : bool) : list VerificationResult :=
  match verify_message ascii_env (sample_world 20 good_records) signed_headers (forbid_unsigned b) (output_chunks ++ [lit "added"]) with
  | Val (Some rs) => rs
  | _ => []
  end.

Example C50_example :
  evaluation ascii_env (sample_world 20 good_records) signed_headers (forbid_unsigned true) output_chunks
    (fun p => sample_zone good_records (key_name p)) (sample_results (forbid_unsigned true) good_records)
  /\ vr_status (sample_result (forbid_unsigned true) good_records) = Success
  /\ evaluation ascii_env (sample_world 20 good_records) signed_headers (forbid_unsigned false) (output_chunks ++ [lit "added"])
    (fun p => sample_zone good_records (key_name p)) (extended false)
  /\ vr_status (nth 1 (extended false) (mkVResult Success 0 None None)) = Success
  /\ vr_status (nth 1 (extended true) (mkVResult Success 0 None None)) = Failure (Policy UnsignedContent)
  /\ option_map s_body_length (vr_signature (nth 1 (extended false) (mkVResult Success 0 None None))) = Some (Some 4).
Proof.
  split; [apply sample_evaluation; vm_compute; reflexivity|]. split; [vm_compute; reflexivity|].
  split; [apply steady_evaluation; [apply sample_world_ok|exact signed_header_fields|apply sample_steady|vm_compute; reflexivity]|].
  repeat split; vm_compute; reflexivity.
Qed.

(** ** C51 *)

Theorem C51_classes : forall s d, to_dkim_result s = d <-> result_class s d.
Proof.
  intros s d. split.
  - intros <-. destruct s as [|e]; [constructor|].
    destruct e; cbn [to_dkim_result]; try (constructor; cbn; tauto).
    + destruct (se_kind e) eqn:K;
        first [apply rc_neutral_signature; rewrite K; unfold incomplete_signature; cbn; intuition discriminate
              |apply rc_permanent_signature; rewrite K; unfold incomplete_signature; cbn; tauto].
    + destruct e; first [apply rc_neutral_record; discriminate|apply rc_permanent; cbn; tauto].
    + destruct e; first [apply rc_fail_signature|apply rc_permanent; cbn; tauto].
  - intros H. destruct H as [| | |p|e H|e H|e H|e H|e H1 H2|]; try reflexivity.
    + destruct H as [<-|[<-|[]]]; reflexivity.
    + cbn [In] in H. intuition (subst; reflexivity).
    + unfold incomplete_signature in H. cbn [to_dkim_result]. cbn [In] in H. destruct (se_kind e); try reflexivity; exfalso; intuition discriminate.
    + unfold incomplete_signature in H. cbn [to_dkim_result]. destruct (se_kind e); cbn [In] in H; try reflexivity; exfalso; apply H; tauto.
    + destruct e; try reflexivity; contradiction.
Qed.
Print Assumptions C51_classes.

Theorem C51_pass_temperror : forall s,
  (to_dkim_result s = RPass <-> s = Success)
  /\ (to_dkim_result s = RTemperror <-> s = Failure VTimeout \/ s = Failure KeyLookup)
  /\ (to_dkim_result s = RPolicy <-> exists p, s = Failure (Policy p))
  /\ (to_dkim_result s = RFail <-> s = Failure BodyHashMismatch \/ s = Failure (VerificationFailure CryptoVerificationFailure)).
Proof.
  intros s. rewrite !C51_classes. repeat split; intros H.
  - inversion H. reflexivity.
  - subst. constructor.
  - inversion H; subst. cbn [In] in *. intuition (subst; auto).
  - destruct H as [-> | ->]; constructor; cbn; auto.
  - inversion H. eauto.
  - destruct H as (p & ->). constructor.
  - inversion H; auto.
  - destruct H as [-> | ->]; constructor.
Qed.
Print Assumptions C51_pass_temperror.

(** whatever the results of verification, a temporary error has to do with the
    answer for the signature's own key *)
Theorem C51_temporary : forall E w headers config chunks answer rs i name value r,
  evaluation E w headers config chunks answer rs -> result_for config headers rs i name value r ->
  (to_dkim_result (vr_status r) = RTemperror <->
   exists s sig p k, in_progress E headers config (w_clock w i) value s sig /\ lookup_pair E sig p /\ answer p = Err k
     /\ k <> NotFound /\ k <> InvalidInput).
Proof.
  intros E w headers config chunks answer rs i name value r Ev R. destruct (evaluation_verdict _ _ _ _ _ _ _ _ _ _ _ Ev R) as (V & _).
  split.
  - intros T. apply C51_pass_temperror in T.
    destruct V as [s0 e0 R0|s0 sg e0 R0 F0|s0 sg p k e0 P L A X|s0 sg p P L A|s0 sg p txts k e0 P L A X|s0 sg p txts k P L A X]; cbn in T.
    + destruct T as [T|T]; discriminate T.
    + apply first_of_in in F0. cbn in F0. destruct T as [T|T]; injection T as ->; intuition discriminate.
    + exists s0, sg, p, k. split; [exact P|]. split; [exact L|]. split; [exact A|]. destruct X; [destruct T; discriminate..| |]; [split; discriminate|auto].
    + destruct T as [T|T]; discriminate T.
    + exfalso. destruct (records_outcome_cases _ _ _ _ _ _ _ _ _ X) as [[Y _]|(e' & Y & _ & b & t & _ & O)]; [discriminate Y|]. injection Y as <-.
      inversion O as [| |s' k' e2 R1 R2 F]; subst; try (destruct T as [T|T]; discriminate T).
      apply first_of_in in F. cbn in F. destruct T as [T|T]; injection T as ->; intuition discriminate.
    + exfalso. destruct T as [T|T]; apply body_not_other in T; intuition discriminate.
  - intros (s & sig & p & k & P & L & A & N1 & N2).
    assert (exists e, lookup_error k e /\ (e = VTimeout \/ e = KeyLookup)) as (e & K & Z).
    { destruct (match k with TimedOut => true | _ => false end) eqn:T.
      - exists VTimeout. destruct k; try discriminate. split; [constructor|auto].
      - exists KeyLookup. split; [|auto]. apply le_other; auto. intros ->. discriminate T. }
    rewrite (verdict_det _ _ _ _ _ _ _ _ _ _ _ V (vd_lookup _ _ _ _ _ _ _ _ _ _ _ _ _ _ P L A K)). cbn [vr_status].
    apply C51_pass_temperror. destruct Z as [-> | ->]; auto.
Qed.
Print Assumptions C51_temporary.

Example C51_example : map to_dkim_result
  [Success; Failure KeyLookup; Failure BodyHashMismatch; Failure (Policy KeyTooSmall); Failure NoKeyFound]
  = [RPass; RTemperror; RFail; RPolicy; RPermerror].
Proof. reflexivity. Qed.

Example C51_temporary_example :
  map (fun r => to_dkim_result (vr_status r))
    match verify_message ascii_env (mkWorld (mkResolver (fun _ _ => Err TimedOut) (fun _ _ => 0)) (fun _ => 1003) (@rev _) (@rev _))
      signed_headers default_config output_chunks with Val (Some rs) => rs | _ => [] end
  = [RPermerror; RTemperror; RTemperror].
Proof. vm_compute. reflexivity. Qed.
