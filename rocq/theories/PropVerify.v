(** Properties C12 (verifier), C41 to C46: verification. *)

From Coq Require Import String List Permutation.
From Verif Require Import Base Utf8 Canon BodyHash Header Domain Signature KeyRecord Crypto TagList Format Sign Verify
  SpecText SpecCanon SpecHash SpecHeader SpecTag SpecDomain SpecSig SpecRecord SpecFormat SpecSign SpecOutput SpecVerify
  HeaderProofs VerifyProofs VerifyKeys VerifyRun VerifyFacts Lib Sample PropDomain PropSign PropOutput.
Import ListNotations.
Open Scope N_scope.

(** ** A sample *)

(** a bad signature, and a good one twice *)
Definition good_field : HeaderField := (so_header_name output_sample, as_bytes (so_header_value output_sample)).
Definition signed_headers : list HeaderField :=
  (lit "dkim-signature", lit " v=1; a=rsa-sha256") :: good_field :: good_field :: sample_headers.
Definition sample_key_name : str := lit "a-very.long-selector.name._domainkey.example.com.".
Definition sample_zone (records : list str) (name : str) : IoResult (list (IoResult (list byte))) :=
  if leqb name sample_key_name then Ok (map (fun r => Ok (as_bytes r)) records) else Err NotFound.
Definition sample_world (latency : N) (records : list str) : World :=
  mkWorld (mkResolver (fun _ => sample_zone records) (fun _ _ => latency)) (fun _ => 1003) (@rev _) (@rev _).
Definition good_records : list str := [lit "junk"; lit "p=AQc="].
Definition sample_results (config : Config) (records : list str) : list VerificationResult :=
  match verify_message ascii_env (sample_world 20 records) signed_headers config output_chunks with
  | Val (Some rs) => rs
  | _ => []
  end.

Lemma sample_world_ok : forall l r, world_ok (sample_world l r).
Proof. intros l r. split; intros x; cbn; symmetry; apply Permutation_rev. Qed.

Lemma sample_steady : forall l r, steady (w_resolver (sample_world l r)) (sample_zone r).
Proof. intros l r n name. reflexivity. Qed.

Lemma signed_header_fields : header_fields signed_headers.
Proof.
  assert (forall n v, field_name_new n = Some n -> field_body_new v = Some v -> forallb (fun b => b <? 256) v = true ->
    field_name n /\ field_body v /\ Forall is_byte v) as X.
  { intros n v H1 H2 H3. apply field_name_new_spec in H1. apply field_body_new_spec in H2. split; [tauto|]. split; [tauto|].
    apply Forall_forall. intros b Hb. rewrite forallb_forall in H3. specialize (H3 b Hb). unfold is_byte. lia. }
  constructor; [apply X; vm_compute; reflexivity|]. constructor; [apply X; vm_compute; reflexivity|]. constructor; [apply X; vm_compute; reflexivity|].
  exact sample_header_fields.
Qed.

Lemma sample_evaluation : forall config records,
  verify_message ascii_env (sample_world 20 records) signed_headers config output_chunks = Val (Some (sample_results config records)) ->
  evaluation ascii_env (sample_world 20 records) signed_headers config output_chunks
    (fun p => sample_zone records (key_name p)) (sample_results config records).
Proof.
  intros config records H. apply steady_evaluation; [apply sample_world_ok|exact signed_header_fields|apply sample_steady|exact H].
Qed.

(** ** C12 *)

Theorem C12_verifier_done : forall E w headers config v log t chunks v1 c v2 more,
  verify_header E w headers config = Val (Some (v, log, t)) ->
  verifier_chunks v chunks = Val v1 -> verifier_chunk v1 c = Val (Done, v2) ->
  verifier_chunks v2 more = Val v2.
Proof. exact verifier_done. Qed.
Print Assumptions C12_verifier_done.

Example C12_verifier_example : exists v log t v1 v2,
  verify_header ascii_env (sample_world 20 good_records) signed_headers default_config = Val (Some (v, log, t))
  /\ verifier_chunks v [lit "Hi"] = Val v1 /\ verifier_chunk v1 ([13; 10] ++ lit "junk") = Val (Done, v2).
Proof.
  destruct (verify_header ascii_env (sample_world 20 good_records) signed_headers default_config) as [[[[v log] t]|]|] eqn:X.
  2,3: vm_compute in X; discriminate X.
  destruct (verifier_chunks v [lit "Hi"]) as [v1|] eqn:Y. 2: vm_compute in X; injection X as <- _ _; vm_compute in Y; discriminate Y.
  destruct (verifier_chunk v1 ([13; 10] ++ lit "junk")) as [[[] v2]|] eqn:Z.
  - vm_compute in X. injection X as <- _ _. vm_compute in Y. injection Y as <-. vm_compute in Z. discriminate Z.
  - exists v, log, t, v1, v2. auto.
  - vm_compute in X. injection X as <- _ _. vm_compute in Y. injection Y as <-. vm_compute in Z. discriminate Z.
Qed.

(** ** C41 *)

(** One result for each of the first [max_signatures] fields named
    DKIM-Signature, in order, with the position of the field. *)
Theorem C41_results : forall E w headers config chunks, world_ok w -> header_fields headers ->
  (examined config headers = [] /\ verify_message E w headers config chunks = Val None)
  \/ (examined config headers <> [] /\ exists rs, verify_message E w headers config chunks = Val (Some rs)
        /\ map vr_index rs = map fst (examined config headers)).
Proof. exact verify_message_cases. Qed.
Print Assumptions C41_results.

(** which fields these are *)
Theorem C41_examined : forall config headers,
  (examined config headers = [] <-> cf_max_signatures config = 0%nat
     \/ forall f, In f headers -> ~ same_name (fst f) (lit "DKIM-Signature"))
  /\ (forall j f, In (j, f) (signature_fields 0 headers) <-> nth_error headers j = Some f /\ same_name (fst f) (lit "DKIM-Signature"))
  /\ Sorted.StronglySorted lt (map fst (signature_fields 0 headers)).
Proof.
  intros config headers. split; [|split; [|apply signature_fields_increasing]].
  - assert (signature_fields 0 headers = [] <-> forall f, In f headers -> ~ same_name (fst f) (lit "DKIM-Signature")) as X.
    { split.
      - intros H f Hf S. apply In_nth_error in Hf as (j & Hj). assert (In (j, f) (signature_fields 0 headers)) as K; [|rewrite H in K; exact K].
        apply signature_fields_in. rewrite Nat.sub_0_r. split; [lia|auto].
      - intros H. destruct (signature_fields 0 headers) as [|[j f] l] eqn:Y; [reflexivity|]. exfalso.
        assert (In (j, f) (signature_fields 0 headers)) as K by (rewrite Y; left; reflexivity). apply signature_fields_in in K as (_ & K1 & K2).
        apply nth_error_In in K1. exact (H _ K1 K2). }
    rewrite <- X. unfold examined. destruct (signature_fields 0 headers) as [|a l]; [rewrite firstn_nil; tauto|].
    destruct (cf_max_signatures config); cbn; [tauto|]. split; [discriminate|]. intros [K|K]; discriminate K.
  - intros j f. rewrite signature_fields_in, Nat.sub_0_r. split; [tauto|]. intros H. split; [lia|exact H].
Qed.
Print Assumptions C41_examined.

(** Each result is the verdict on its signature, given what the resolver
    answered; verdicts are unique, and a resolver has always answered. *)
Theorem C41_verdicts : forall E w headers config chunks answer rs, evaluation E w headers config chunks answer rs ->
  Forall2 (fun f r => verdict E answer headers config (w_clock w (fst f)) (concat chunks) (fst f) (fst (snd f)) (snd (snd f)) r)
    (examined config headers) rs.
Proof. exact evaluation_verdicts. Qed.
Print Assumptions C41_verdicts.

Theorem C41_verdict_unique : forall E answer headers config now body i name value r r',
  verdict E answer headers config now body i name value r -> verdict E answer headers config now body i name value r' -> r = r'.
Proof. exact verdict_det. Qed.
Print Assumptions C41_verdict_unique.

Theorem C41_evaluation : forall E w headers config chunks, world_ok w -> header_fields headers -> examined config headers <> [] ->
  exists answer rs, evaluation E w headers config chunks answer rs.
Proof. exact evaluation_exists. Qed.
Print Assumptions C41_evaluation.

Example C41_example : world_ok (sample_world 20 good_records) /\ header_fields signed_headers
  /\ map fst (examined default_config signed_headers) = [0; 1; 2]%nat
  /\ evaluation ascii_env (sample_world 20 good_records) signed_headers default_config output_chunks
       (fun p => sample_zone good_records (key_name p)) (sample_results default_config good_records)
  /\ map vr_index (sample_results default_config good_records) = [0; 1; 2]%nat
  /\ map (fun r => to_dkim_result (vr_status r)) (sample_results default_config good_records) = [RPermerror; RPass; RPass].
Proof.
  split; [apply sample_world_ok|]. split; [exact signed_header_fields|]. split; [vm_compute; reflexivity|].
  split; [apply sample_evaluation; vm_compute; reflexivity|]. split; vm_compute; reflexivity.
Qed.

Example C41_no_signature :
  verify_message ascii_env (sample_world 20 good_records) sample_headers default_config output_chunks = Val None.
Proof. vm_compute. reflexivity. Qed.

(** ** C42 *)

(** Success, and nothing else: the field is a signature, which passes the checks;
    a record consulted for its domain and selector confirms it; the body hashes to
    the hash value in it. *)
Theorem C42_success : forall E w headers config chunks answer rs i name value r,
  evaluation E w headers config chunks answer rs -> result_for config headers rs i name value r ->
  (vr_status r = Success <->
   exists sig s p txts txt k,
     signature_read E value s (Ok sig) /\ signature_good E headers config (w_clock w i) sig /\ lookup_pair E sig p
     /\ answer p = Ok txts /\ In txt (consulted txts) /\ record_accepts E headers config sig name s txt k
     /\ body_matches E config sig (concat chunks)).
Proof.
  intros E w headers config chunks answer rs i name value r Ev R. destruct (evaluation_verdict _ _ _ _ _ _ _ _ _ _ _ Ev R) as (V & Hn & Hh & _).
  exact (verdict_success _ _ _ _ _ _ _ _ _ _ Hh Hn V).
Qed.
Print Assumptions C42_success.

Example C42_example :
  evaluation ascii_env (sample_world 20 good_records) signed_headers default_config output_chunks
    (fun p => sample_zone good_records (key_name p)) (sample_results default_config good_records)
  /\ result_for default_config signed_headers (sample_results default_config good_records) 1 (fst good_field) (snd good_field)
       (nth 1 (sample_results default_config good_records) (mkVResult Success 0 None None))
  /\ vr_status (nth 1 (sample_results default_config good_records) (mkVResult Success 0 None None)) = Success
  /\ vr_status (nth 1 (sample_results default_config [lit "p=AQg="]) (mkVResult Success 0 None None))
     = Failure (VerificationFailure CryptoVerificationFailure).
Proof.
  split; [apply sample_evaluation; vm_compute; reflexivity|]. split; [exists 1%nat; split; vm_compute; reflexivity|]. split; vm_compute; reflexivity.
Qed.

(** ** C43 *)

(** With a resolver whose answers do not depend on when they are asked for,
    results do not depend on the order of lookups, on latency, on the order of
    hash map entries, nor on chunk boundaries. *)
Theorem C43_order : forall E w1 w2 headers config chunks1 chunks2 zone, world_ok w1 -> world_ok w2 -> header_fields headers ->
  steady (w_resolver w1) zone -> steady (w_resolver w2) zone -> (forall i, w_clock w1 i = w_clock w2 i) ->
  concat chunks1 = concat chunks2 ->
  verify_message E w1 headers config chunks1 = verify_message E w2 headers config chunks2.
Proof. exact order_independent. Qed.
Print Assumptions C43_order.

(** Signatures do not influence each other: the result is that of the signature's
    own field under the answer for its own name. *)
Theorem C43_separate : forall E w headers config chunks zone rs, world_ok w -> header_fields headers ->
  steady (w_resolver w) zone -> verify_message E w headers config chunks = Val (Some rs) ->
  Forall2 (fun f r => verdict E (fun p => zone (key_name p)) headers config (w_clock w (fst f)) (concat chunks)
                        (fst f) (fst (snd f)) (snd (snd f)) r)
    (examined config headers) rs.
Proof. intros. apply (evaluation_verdicts _ _ _ _ _ _ _ (steady_evaluation _ _ _ _ _ _ _ H H0 H1 H2)). Qed.
Print Assumptions C43_separate.

Example C43_example : world_ok (sample_world 20 good_records)
  /\ world_ok (mkWorld (w_resolver (sample_world 7 good_records)) (fun _ => 1003) (fun l => l) (fun l => l))
  /\ steady (w_resolver (sample_world 20 good_records)) (sample_zone good_records)
  /\ steady (w_resolver (sample_world 7 good_records)) (sample_zone good_records).
Proof. split; [apply sample_world_ok|]. split; [split; reflexivity|]. split; apply sample_steady. Qed.

(** ** C44 *)

Theorem C44_lookups : forall E w headers config v log t, world_ok w -> header_fields headers ->
  verify_header E w headers config = Val (Some (v, log, t)) ->
  exists qs, log = lookup_log (w_resolver w) 0 0 qs /\ NoDup qs
    /\ (forall p, In p qs <-> pair_needed E headers config (w_clock w) p)
    /\ (length qs <= cf_max_signatures config)%nat
    /\ map (fun l => snd (fst l)) log = map (fun p => snd p ++ lit "._domainkey." ++ fst p ++ lit ".") qs
    /\ forall chunks answer, answered (w_resolver w) qs answer ->
         exists rs, evaluation E w headers config chunks answer rs.
Proof.
  intros E w headers config v log t W H V. destruct (lookups_spec E w headers config v log t W H V) as (qs & L & T & ND & Q & B1 & B2).
  exists qs. split; [exact L|]. split; [exact ND|]. split; [exact Q|]. split; [lia|]. split.
  - rewrite L. generalize 0%nat 0. clear. induction qs as [|q qs IH]; intros n t; [reflexivity|]. cbn [lookup_log map fst snd]. rewrite IH. reflexivity.
  - intros chunks answer A. destruct (verify_spec E w headers config W H) as [[_ X]|(_ & v' & qs' & X & _ & _ & R)]; [congruence|].
    destruct (R chunks) as (v2 & rs & R1 & R2 & _). exists rs. split; [exact W|]. split; [exact H|]. split.
    + unfold verify_message. rewrite X. cbn [bind]. rewrite R1. cbn [bind]. rewrite R2. reflexivity.
    + exists v, qs, t. rewrite <- L. auto.
Qed.
Print Assumptions C44_lookups.

Example C44_example : exists v t, verify_header ascii_env (sample_world 20 good_records) signed_headers default_config
  = Val (Some (v, [((lit "example.com", lit "a-very.long-selector.name"), sample_key_name, 0)], t)).
Proof. eexists _, _. vm_compute. reflexivity. Qed.

(** ** C45 *)

(** Of the records published, the first two and the last are consulted, in order.
    The first that confirms the signature decides it; if none does, the reason
    given is that of the last. *)
Theorem C45_records : forall E w headers config chunks answer rs i name value r s sig p txts,
  evaluation E w headers config chunks answer rs -> result_for config headers rs i name value r ->
  in_progress E headers config (w_clock w i) value s sig -> lookup_pair E sig p -> answer p = Ok txts -> txts <> [] ->
  vr_signature r = Some sig /\
  ((exists before txt after k, consulted txts = before ++ txt :: after
      /\ Forall (fun t => forall k', ~ record_accepts E headers config sig name s t k') before
      /\ record_accepts E headers config sig name s txt k
      /\ vr_status r = body_status E config sig (concat chunks) /\ vr_key_record r = Some k)
   \/ (exists before txt e, consulted txts = before ++ [txt]
      /\ Forall (fun t => forall k', ~ record_accepts E headers config sig name s t k') (consulted txts)
      /\ record_outcome E headers config sig name s txt (vr_key_record r) (Some e) /\ vr_status r = Failure e)).
Proof.
  intros E w headers config chunks answer rs i name value r s sig p txts Ev R P L A N.
  destruct (evaluation_verdict _ _ _ _ _ _ _ _ _ _ _ Ev R) as (V & Hn & Hh & _). eapply verdict_records; eassumption.
Qed.
Print Assumptions C45_records.

(** Other records have no influence. *)
Theorem C45_others : forall E w1 w2 headers config chunks zone1 zone2, world_ok w1 -> world_ok w2 -> header_fields headers ->
  steady (w_resolver w1) zone1 -> steady (w_resolver w2) zone2 -> (forall i, w_clock w1 i = w_clock w2 i) ->
  (forall name, match zone1 name, zone2 name with
                | Ok t, Ok t' => consulted t = consulted t'
                | Err k, Err k' => k = k'
                | _, _ => False
                end) ->
  verify_message E w1 headers config chunks = verify_message E w2 headers config chunks.
Proof.
  intros E w1 w2 headers config chunks z1 z2 W1 W2 H S1 S2 Hc Hz.
  destruct (verify_message_cases E w1 headers config chunks W1 H) as [[X V]|(X & rs & V & _)];
  destruct (verify_message_cases E w2 headers config chunks W2 H) as [[X' V']|(X' & rs' & V' & _)]; try contradiction; [congruence|].
  rewrite V, V'. do 2 f_equal. pose proof (C43_separate _ _ _ _ _ _ _ W1 H S1 V) as F. pose proof (C43_separate _ _ _ _ _ _ _ W2 H S2 V') as F'.
  eapply (verdicts_equal _ _ _ _ (w_clock w2)); [|exact F']. revert F. apply Forall2_imp. intros f r _ _ D. rewrite Hc in D.
  eapply verdict_similar; [|exact D]. intros p. apply Hz.
Qed.
Print Assumptions C45_others.

Example C45_example :
  map (fun records => vr_status (nth 1 (sample_results default_config records) (mkVResult Success 0 None None)))
    [[lit "p=AQg="; lit "p="; lit "p=AQg="; lit "p=AQc="];
     [lit "p=AQg="; lit "p="; lit "p=AQc="; lit "k=ed25519;p=AQc="];
     [lit "p=AQc="; lit "p="]]
  = [Success; Failure WrongKeyType; Success]
  /\ @consulted nat [1; 2; 3; 4; 5]%nat = [1; 2; 5]%nat.
Proof. split; vm_compute; reflexivity. Qed.

(** ** C46 *)

(** The lookup timeout is never applied: a lookup may take longer. *)
Theorem C46_timeout_refuted : ~ forall E w headers config chunks answer rs i name value r s sig p,
  evaluation E w headers config chunks answer rs -> result_for config headers rs i name value r ->
  in_progress E headers config (w_clock w i) value s sig -> lookup_pair E sig p ->
  (forall n, cf_lookup_timeout config < rs_latency (w_resolver w) n (key_name p)) ->
  vr_status r = Failure VTimeout.
Proof.
  intros H. pose proof (sample_evaluation default_config good_records ltac:(vm_compute; reflexivity)) as Ev.
  set (r := nth 1 (sample_results default_config good_records) (mkVResult Success 0 None None)).
  assert (vr_status r = Success) as S by (vm_compute; reflexivity).
  assert (result_for default_config signed_headers (sample_results default_config good_records) 1 (fst good_field) (snd good_field) r) as R
    by (exists 1%nat; split; vm_compute; reflexivity).
  pose proof (proj1 (C42_success _ _ _ _ _ _ _ _ _ _ _ Ev R) S) as (sig & s & p & txts & txt & k & H1 & H2 & H3 & _).
  assert (vr_status r = Failure VTimeout) as X.
  { eapply H; [exact Ev|exact R| |exact H3|].
    - split; [exact H1|]. apply signature_good_iff. exact H2.
    - intros n. reflexivity. }
  rewrite S in X. discriminate X.
Qed.
Print Assumptions C46_timeout_refuted.

(** In fact, neither the configured timeout nor latency has any influence; and the
    time spent is that of all lookups together. *)
Theorem C46_timeout_unused : forall E w1 w2 headers config timeout chunks zone, world_ok w1 -> world_ok w2 -> header_fields headers ->
  steady (w_resolver w1) zone -> steady (w_resolver w2) zone -> (forall i, w_clock w1 i = w_clock w2 i) ->
  verify_message E w1 headers config chunks
  = verify_message E w2 headers
      (mkConfig timeout (cf_max_signatures config) (cf_headers_required_in_signature config)
         (cf_headers_forbidden_to_be_unsigned config) (cf_min_key_bits config) (cf_allow_sha1 config)
         (cf_forbid_unsigned_content config) (cf_allow_expired config) (cf_allow_timestamp_in_future config)
         (cf_time_tolerance config) (cf_fixed_system_time config)) chunks.
Proof.
  intros E w1 w2 headers config timeout chunks zone W1 W2 H S1 S2 Hc.
  rewrite (order_independent E w1 w2 headers config chunks chunks zone W1 W2 H S1 S2 Hc eq_refl).
  change (mkConfig _ _ _ _ _ _ _ _ _ _ _) with (with_timeout timeout config).
  destruct (verify_message_cases E w2 headers config chunks W2 H) as [[X V]|(X & rs & V & _)];
  destruct (verify_message_cases E w2 headers (with_timeout timeout config) chunks W2 H) as [[X' V']|(X' & rs' & V' & _)];
    try contradiction; [congruence|].
  rewrite V, V'. do 2 f_equal. pose proof (C43_separate _ _ _ _ _ _ _ W2 H S2 V) as F. pose proof (C43_separate _ _ _ _ _ _ _ W2 H S2 V') as F'.
  eapply verdicts_equal; [|exact F']. revert F. apply Forall2_imp. intros f r _ _ D. apply verdict_timeout. exact D.
Qed.
Print Assumptions C46_timeout_unused.

Theorem C46_time_spent : forall E w headers config v log t, world_ok w -> header_fields headers ->
  verify_header E w headers config = Val (Some (v, log, t)) ->
  exists qs, log = lookup_log (w_resolver w) 0 0 qs /\ t = lookups_end (w_resolver w) 0 0 qs.
Proof.
  intros E w headers config v log t W H V. destruct (lookups_spec E w headers config v log t W H V) as (qs & L & T & _). eauto.
Qed.
Print Assumptions C46_time_spent.

Example C46_example : cf_lookup_timeout default_config = 10
  /\ exists v log, verify_header ascii_env (sample_world 20 good_records) signed_headers default_config = Val (Some (v, log, 20)).
Proof. split; [reflexivity|]. eexists _, _. vm_compute. reflexivity. Qed.
