(** Property C65: stricter and looser configurations. *)

From Coq Require Import String List.
From Verif Require Import Base Utf8 Canon BodyHash Header Domain Signature KeyRecord Crypto TagList Format Sign Verify
  SpecText SpecCanon SpecHash SpecHeader SpecTag SpecDomain SpecSig SpecRecord SpecFormat SpecSign SpecOutput SpecVerify SpecLoose
  VerifyFacts LooseProofs Lib Sample PropDomain PropSign PropOutput PropVerify PropPolicy.
Import ListNotations.
Open Scope N_scope.

(** What succeeds under a configuration succeeds under a looser one, with the same
    signature, and with the same key record if the least size of keys is the same. *)
Theorem C65_looser : forall E w w' headers config config' chunks chunks' zone rs i name value r,
  looser config config' -> world_ok w -> world_ok w' -> header_fields headers ->
  steady (w_resolver w) zone -> steady (w_resolver w') zone -> w_clock w i = w_clock w' i -> concat chunks = concat chunks' ->
  verify_message E w headers config chunks = Val (Some rs) -> result_for config headers rs i name value r ->
  vr_status r = Success ->
  exists rs' r', verify_message E w' headers config' chunks' = Val (Some rs') /\ result_for config' headers rs' i name value r'
    /\ vr_status r' = Success /\ vr_signature r' = vr_signature r
    /\ (cf_min_key_bits config = cf_min_key_bits config' -> r' = r).
Proof.
  intros E w w' headers config config' chunks chunks' zone rs i name value r L W W' Hh S S' Hc Hb M R Su.
  destruct (looser_message E w w' headers config config' chunks chunks' zone rs i name value r) as (rs' & r' & M' & R' & Hn & V & V'); try assumption.
  exists rs', r'. split; [exact M'|]. split; [exact R'|]. eapply looser_verdict; eassumption.
Qed.
Print Assumptions C65_looser.

(** Any other configuration, at any time, takes success away for reasons of policy only,
    unless it takes keys away and there is more than one record. *)
Theorem C65_stricter : forall E w w' headers config config' chunks chunks' zone rs rs' i name value r r',
  world_ok w -> world_ok w' -> header_fields headers ->
  steady (w_resolver w) zone -> steady (w_resolver w') zone -> concat chunks = concat chunks' ->
  verify_message E w headers config chunks = Val (Some rs) -> result_for config headers rs i name value r ->
  verify_message E w' headers config' chunks' = Val (Some rs') -> result_for config' headers rs' i name value r' ->
  cf_min_key_bits config = cf_min_key_bits config' \/ (forall n txts, zone n = Ok txts -> (length txts <= 1)%nat) ->
  vr_status r' = Success ->
  vr_status r = Success \/ exists p, vr_status r = Failure (Policy p).
Proof.
  intros E w w' headers config config' chunks chunks' zone rs rs' i name value r r' W W' Hh S S' Hb M R M' R' Z Su.
  pose proof (steady_evaluation _ _ _ _ _ _ _ W Hh S M) as Ev. destruct (evaluation_verdict _ _ _ _ _ _ _ _ _ _ _ Ev R) as (V & Hn & _).
  pose proof (steady_evaluation _ _ _ _ _ _ _ W' Hh S' M') as Ev'. destruct (evaluation_verdict _ _ _ _ _ _ _ _ _ _ _ Ev' R') as (V' & _).
  rewrite <- Hb in V'. eapply stricter_verdict; try eassumption. destruct Z as [Z|Z]; [left; exact Z|right; intros p; apply Z].
Qed.
Print Assumptions C65_stricter.

(** Several steps from lax to strict; a key too small for policy followed by a record
    of another type. *)
Definition lax : Config := mkConfig 10 10 [] [] 0 true false true true 300 None.
Definition strict : Config := mkConfig 3 2 [lit "from"] [lit "FROM"; lit "subject"] 1793 false true false false 2 None.

Example C65_example : looser default_config lax /\ looser strict lax /\ looser (min_bits 1793) (min_bits 1792) /\ ~ looser lax strict
  /\ verify_message ascii_env (sample_world 20 good_records) signed_headers default_config output_chunks
     = Val (Some (sample_results default_config good_records))
  /\ result_for default_config signed_headers (sample_results default_config good_records) 1 (fst good_field) (snd good_field)
       (sample_result default_config good_records)
  /\ vr_status (sample_result default_config good_records) = Success
  /\ vr_status (sample_result strict [lit "p=AQc="]) = Failure (Policy KeyTooSmall)
  /\ vr_status (sample_result (min_bits 1792) [lit "p=AQc="; lit "k=ed25519; p=AQc="]) = Success
  /\ vr_status (sample_result (min_bits 1793) [lit "p=AQc="; lit "k=ed25519; p=AQc="]) = Failure WrongKeyType.
Proof.
  assert (forall a b, looser strict lax /\ (b <= a -> looser (min_bits a) (min_bits b))) as X.
  { intros a b. split.
    - repeat split; cbn; try discriminate; try lia; intros ? [].
    - intros L. repeat split; cbn; try discriminate; try lia; intros n H; exists n; split; auto; reflexivity. }
  split; [repeat split; cbn; try discriminate; try lia; intros ? []|]. split; [apply (X 0 0)|]. split; [apply X; lia|].
  split; [intros (H & _); cbn in H; lia|]. split; [vm_compute; reflexivity|]. split; [apply sample_result_for; vm_compute; reflexivity|].
  repeat split; vm_compute; reflexivity.
Qed.
