(** Property C106: the limit on the number of signatures. *)

From Coq Require Import String List Permutation.
From Verif Require Import Base Utf8 Canon BodyHash Header Domain Signature KeyRecord Crypto TagList Format Sign Verify
  SpecText SpecCanon SpecHash SpecHeader SpecTag SpecDomain SpecSig SpecRecord SpecFormat SpecSign SpecVerify SpecLimit
  VerifyRun VerifyFacts LimitProofs Lib Sample PropSign PropOutput PropVerify.
Import ListNotations.
Open Scope N_scope.

(** With a lower limit there are only the first ones of the results. *)
Theorem C106_results : forall E w w' headers config n m chunks chunks' zone, (n <= m)%nat -> world_ok w -> world_ok w' -> header_fields headers ->
  steady (w_resolver w) zone -> steady (w_resolver w') zone -> (forall i, w_clock w i = w_clock w' i) -> concat chunks = concat chunks' ->
  exists rs, verify_message E w headers (with_max m config) chunks = Val rs
    /\ verify_message E w' headers (with_max n config) chunks' = Val (limited n rs).
Proof. exact limit. Qed.
Print Assumptions C106_results.

(** Lookups are made only for names that are looked up with the higher limit, and
    not more than the limit. *)
Theorem C106_lookups : forall E w w' headers config n m v v' log log' t t', (n <= m)%nat -> world_ok w -> world_ok w' -> header_fields headers ->
  (forall i, w_clock w i = w_clock w' i) ->
  verify_header E w headers (with_max m config) = Val (Some (v, log, t)) ->
  verify_header E w' headers (with_max n config) = Val (Some (v', log', t')) ->
  exists qs qs', log = lookup_log (w_resolver w) 0 0 qs /\ log' = lookup_log (w_resolver w') 0 0 qs' /\ incl qs' qs /\ (length qs' <= n)%nat.
Proof. exact limit_lookups. Qed.
Print Assumptions C106_lookups.

Example C106_example :
  cf_max_signatures default_config = 10%nat
  /\ length (sample_results default_config good_records) = 3%nat
  /\ (forall n, In n [0; 1; 2; 3; 4]%nat ->
        verify_message ascii_env (sample_world 20 good_records) signed_headers (with_max n default_config) output_chunks
        = Val (limited n (Some (sample_results default_config good_records))))
  /\ map vr_status (sample_results (with_max 2 default_config) good_records) = map vr_status (firstn 2 (sample_results default_config good_records))
  /\ (exists v v' log,
        verify_header ascii_env (sample_world 20 good_records) signed_headers (with_max 1 default_config) = Val (Some (v, [], 0))
        /\ verify_header ascii_env (sample_world 20 good_records) signed_headers (with_max 2 default_config) = Val (Some (v', log, 20))
        /\ length log = 1%nat).
Proof.
  split; [reflexivity|]. split; [vm_compute; reflexivity|]. split; [intros n [<-|[<-|[<-|[<-|[<-|[]]]]]]; vm_compute; reflexivity|].
  split; [vm_compute; reflexivity|]. do 3 eexists. split; [vm_compute; reflexivity|]. split; vm_compute; reflexivity.
Qed.
