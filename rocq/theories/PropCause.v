(** Property C75: the reason of each result. *)

From Coq Require Import String List.
From Verif Require Import Base Utf8 Canon BodyHash Header Domain Signature KeyRecord Crypto TagList Sign Verify
  SpecText SpecCanon SpecHash SpecHeader SpecTag SpecDomain SpecSig SpecRecord SpecSign SpecOutput SpecVerify SpecDkim SpecCause
  VerifyFacts CauseProofs Lib Sample PropDomain PropSign PropOutput PropVerify.
Import ListNotations.
Open Scope N_scope.

(** ** C75 *)

(** What a verification returns, completely: nothing if no signature is examined, else
    the verdicts on the signatures examined, in their order. *)
Theorem C75_verifier : forall E w headers config chunks zone o, world_ok w -> header_fields headers -> steady (w_resolver w) zone ->
  (verify_message E w headers config chunks = Val o <->
   (examined config headers = [] /\ o = None)
   \/ (examined config headers <> [] /\ exists rs, o = Some rs
        /\ Forall2 (fun f r => dkim_verdict E zone headers config (w_clock w (fst f)) (concat chunks) (fst f) (fst (snd f)) (snd (snd f)) r)
             (examined config headers) rs)).
Proof. exact verifier_exact. Qed.
Print Assumptions C75_verifier.

(** There is one verdict on each. *)
Theorem C75_unique : forall E zone headers config now body i name value r r',
  dkim_verdict E zone headers config now body i name value r -> dkim_verdict E zone headers config now body i name value r' -> r = r'.
Proof. intros E zone headers config now body i name value r r' H K. apply verdict_iff in H, K. eapply verdict_det; eassumption. Qed.
Print Assumptions C75_unique.

(** Verdicts other than the first two need the key. *)
Theorem C75_without_key : forall E zone zone' headers config now body body' i name value r,
  dkim_verdict E zone headers config now body i name value r ->
  (exists s tags sig, reads_as E value s tags sig /\ first_of (signature_checks E headers config now sig) None)
  \/ (vr_key_record r = None /\ vr_status r <> Success /\ dkim_verdict E zone' headers config now body' i name value r).
Proof.
  intros E zone zone' headers config now body body' i name value r H. destruct H; try (left; eauto; fail); right.
  - split; [reflexivity|]. split; [discriminate|]. apply dv_unreadable. assumption.
  - split; [reflexivity|]. split; [discriminate|]. eapply dv_refused; eassumption.
Qed.
Print Assumptions C75_without_key.

(** results under various key records and configurations *)
Definition causes : list (list VerificationStatus) := Eval vm_compute in
  map (fun records => map vr_status (tl (sample_results default_config (map lit records))))
    [["p=AQc="]; ["junk"]; ["p=AQc=; k=ed25519"]; ["p="]; ["p=AQc=; h=x:sha256"]; ["p=AQc=; t=s"]; ["p=Aw=="]; ["p=AQg="]; ["v=DKIM2; p=AQc="];
     ["p=AQg="; "junk"]; ["junk"; "p=AQg="]; []]%string.
Example C75_example :
  world_ok (sample_world 20 good_records) /\ header_fields signed_headers /\ steady (w_resolver (sample_world 20 good_records)) (sample_zone good_records)
  /\ verify_message ascii_env (sample_world 20 good_records) signed_headers default_config output_chunks
     = Val (Some (sample_results default_config good_records))
  /\ causes = map (fun s => [s; s])
    [Success; Failure (KeyRecordFormat KTagListFormat); Failure WrongKeyType; Failure KeyRevoked; Success; Failure VDomainMismatch;
     Failure (VerificationFailure InvalidKey); Failure (VerificationFailure CryptoVerificationFailure); Failure (KeyRecordFormat KIncompatibleVersion);
     Failure (KeyRecordFormat KTagListFormat); Failure (VerificationFailure CryptoVerificationFailure); Failure NoKeyFound].
Proof.
  split; [apply sample_world_ok|]. split; [exact signed_header_fields|]. split; [apply sample_steady|]. split; [vm_compute; reflexivity|]. reflexivity.
Qed.
