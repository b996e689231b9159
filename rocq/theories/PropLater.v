(** Property C94: the same message verified again, at another time or with other contents
    of DNS. *)

From Coq Require Import String List NArith Permutation.
From Verif Require Import Base Canon Header Signature KeyRecord Crypto Format Sign Verify
  SpecCanon SpecHash SpecHeader SpecSign SpecVerify SpecEnd SpecDkim SpecTransit SpecAuthor SpecUnique SpecChange SpecLater
  TransitProofs ChangeProofs LaterProofs Lib Sample PropDomain PropSign PropOutput PropVerify PropEnd PropTransit.
Import ListNotations.
Open Scope N_scope.

(** A signature found valid once is found valid again exactly if the time is right, and a
    key record now published confirms the signature. *)
Theorem C94_exact : forall E config zone zone' now now' headers body name value r r' sig,
  result_of E config zone now headers body name value r -> vr_status r = Success -> vr_signature r = Some sig ->
  result_of E config zone' now' headers body name value r' ->
  (vr_status r' = Success <-> timely config now' sig /\ confirmed_in E zone' config headers name value sig).
Proof. exact again. Qed.
Print Assumptions C94_exact.

(** Otherwise it fails on account of time, of the lookup, or of key records. *)
Theorem C94_failure : forall E config zone zone' now now' headers body name value r r' sig,
  result_of E config zone now headers body name value r -> vr_status r = Success -> vr_signature r = Some sig ->
  result_of E config zone' now' headers body name value r' ->
  vr_signature r' = Some sig /\ forall e, vr_status r' = Failure e ->
  later_failure e
  /\ (e = Policy SignatureExpired <-> expired config now' sig)
  /\ (e = Policy TimestampInFuture <-> ~ expired config now' sig /\ in_future config now' sig)
  /\ (~ timely config now' sig <-> e = Policy SignatureExpired \/ e = Policy TimestampInFuture).
Proof. exact again_failure. Qed.
Print Assumptions C94_failure.

(** The times at which a signature is valid have no gaps. *)
Theorem C94_between : forall E config zone now1 now2 now3 headers body name value r1 r2 r3,
  result_of E config zone now1 headers body name value r1 -> result_of E config zone now2 headers body name value r2 ->
  result_of E config zone now3 headers body name value r3 -> now1 <= now2 -> now2 <= now3 ->
  vr_status r1 = Success -> vr_status r3 = Success -> vr_status r2 = Success.
Proof. exact no_gap. Qed.
Print Assumptions C94_between.

(** More key records do no harm, as long as those looked at before are looked at. *)
Theorem C94_more : forall E config zone zone' now headers body name value r r', more_consulted zone zone' ->
  result_of E config zone now headers body name value r -> result_of E config zone' now headers body name value r' ->
  vr_status r = Success -> vr_status r' = Success /\ vr_signature r' = vr_signature r.
Proof. exact more_records. Qed.
Print Assumptions C94_more.

(** Up to three key records may come in any order. *)
Theorem C94_order : forall E config zone zone' now headers body name value r r',
  reordered zone zone' -> (forall n txts, zone n = Ok txts -> (length txts <= 3)%nat) ->
  result_of E config zone now headers body name value r -> result_of E config zone' now headers body name value r' ->
  (vr_status r = Success <-> vr_status r' = Success).
Proof. exact order_records. Qed.
Print Assumptions C94_order.

(** ** Samples *)

Definition later_results (records : list str) (now : N) : list VerificationResult :=
  let w := mkWorld (mkResolver (fun _ => sample_zone records) (fun _ _ => 5)) (fun _ => now) (@rev _) (@rev _) in
  match verify_message ascii_env w sent_headers default_config output_chunks with Val (Some rs) => rs | _ => [] end.

Lemma later_result : forall records now r, later_results records now = [r] ->
  result_of ascii_env default_config (sample_zone records) now sent_headers (concat output_chunks) (lit "DKIM-Signature") (snd (signature_field fresh_output)) r.
Proof.
  intros records now r H. set (w := mkWorld (mkResolver (fun _ => sample_zone records) (fun _ _ => 5)) (fun _ => now) (@rev _) (@rev _)).
  assert (header_fields sent_headers) as F by (apply headers_checked; vm_compute; reflexivity).
  exists w, output_chunks, [r], 0%nat. split; [apply (sample_world_ok 20 records)|]. split; [intros ? ?; reflexivity|]. split; [exact F|].
  split; [reflexivity|]. split.
  - unfold later_results in H. fold w in H. cbv zeta in H. fold w in H. destruct (verify_message ascii_env w sent_headers default_config output_chunks) as [[rs|]|]; [congruence|discriminate H..].
  - split; [exists 0%nat; split; reflexivity|reflexivity].
Qed.

Definition result_1 (records : list str) (now : N) : VerificationResult := hd (mkVResult Success 0 None None) (later_results records now).

(** With four, the order matters. *)
Theorem C94_order_refuted : ~ forall E config zone zone' now headers body name value r r', reordered zone zone' ->
  result_of E config zone now headers body name value r -> result_of E config zone' now headers body name value r' ->
  (vr_status r = Success <-> vr_status r' = Success).
Proof.
  intros H. set (rec1 := map lit ["p=AQc="; "junk"; "v=spf1"; "x"]%string). set (rec2 := map lit ["junk"; "v=spf1"; "p=AQc="; "x"]%string).
  assert (reordered (sample_zone rec1) (sample_zone rec2)) as Ro.
  { intros n. unfold sample_zone. destruct (leqb n sample_key_name); [|reflexivity]. apply Permutation_map. unfold rec1, rec2. cbn [map].
    eapply perm_trans; [apply perm_swap|]. apply perm_skip. apply perm_swap. }
  assert (later_results rec1 1003 = [result_1 rec1 1003]) as R1 by (vm_compute; reflexivity).
  assert (later_results rec2 1003 = [result_1 rec2 1003]) as R2 by (vm_compute; reflexivity).
  destruct (H ascii_env default_config _ _ _ _ _ _ _ _ _ Ro (later_result _ _ _ R1) (later_result _ _ _ R2)) as [X _].
  assert (vr_status (result_1 rec1 1003) = Success) as S by (vm_compute; reflexivity). specialize (X S). vm_compute in X. discriminate X.
Qed.
Print Assumptions C94_order_refuted.

(** valid at one time; valid with other records, one of them for the key; then the key is
    withdrawn; then the signature is expired *)
Example C94_example : exists sig,
  result_of ascii_env default_config (sample_zone good_records) 1003 sent_headers (concat output_chunks) (lit "DKIM-Signature")
    (snd (signature_field fresh_output)) (result_1 good_records 1003)
  /\ vr_status (result_1 good_records 1003) = Success /\ vr_signature (result_1 good_records 1003) = Some sig
  /\ vr_status (result_1 (map lit ["p=AQc="; "p="]%string) 400000) = Success
  /\ vr_status (result_1 [lit "p="] 400000) = Failure KeyRevoked
  /\ vr_status (result_1 [lit "p="] 433300) = Failure (Policy SignatureExpired)
  /\ expired default_config 433300 sig /\ timely default_config 433299 sig /\ ~ timely default_config 699 sig
  /\ confirmed_in ascii_env (sample_zone (map lit ["p=AQc="; "p="]%string)) default_config sent_headers (lit "DKIM-Signature")
       (snd (signature_field fresh_output)) sig
  /\ later_results [lit "p="] 400000 = [result_1 [lit "p="] 400000] /\ later_results [lit "p="] 433300 = [result_1 [lit "p="] 433300].
Proof.
  assert (later_results good_records 1003 = [result_1 good_records 1003]) as R by (vm_compute; reflexivity).
  set (two := map lit ["p=AQc="; "p="]%string).
  assert (later_results two 400000 = [result_1 two 400000]) as R2 by (vm_compute; reflexivity).
  assert (vr_status (result_1 good_records 1003) = Success) as S by (vm_compute; reflexivity).
  assert (vr_status (result_1 two 400000) = Success) as S2 by (vm_compute; reflexivity).
  destruct (vr_signature (result_1 good_records 1003)) as [sig|] eqn:Sg; [|vm_compute in Sg; discriminate Sg].
  exists sig. split; [apply later_result; exact R|]. split; [exact S|]. split; [reflexivity|]. split; [exact S2|].
  split; [vm_compute; reflexivity|]. split; [vm_compute; reflexivity|].
  assert (s_expiration sig = Some 433000 /\ s_timestamp sig = Some 1000) as (X & T) by (vm_compute in Sg; injection Sg as <-; split; reflexivity).
  split; [split; [reflexivity|]; exists 433000; split; [exact X|vm_compute; discriminate]|].
  split; [|split].
  - unfold timely. rewrite X, T. split; intros _ x Q; injection Q as <-; vm_compute; [split; reflexivity|discriminate].
  - intros (_ & Y). specialize (Y eq_refl _ T). vm_compute in Y. apply Y. reflexivity.
  - split; [|split; vm_compute; reflexivity].
    exact (proj2 (proj1 (C94_exact _ _ _ _ _ _ _ _ _ _ _ _ _ (later_result _ _ _ R) S Sg (later_result _ _ _ R2)) S2)).
Qed.
