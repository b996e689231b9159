(** Property C105: the time of signing and the format. *)

From Coq Require Import String List Permutation.
From Verif Require Import Base Utf8 Canon BodyHash Header Domain Signature Crypto Format Sign
  SpecText SpecCanon SpecHash SpecHeader SpecTag SpecDomain SpecSig SpecFormat SpecSign SpecRestyle
  SignProofs RestyleProofs Lib Sample PropSign.
Import ListNotations.
Open Scope N_scope.

(** Requests that mention no time but one given have the same results at any time. *)
Theorem C105_timeless : forall E order order' headers rs chunks chunks' clock clock', crypto_typed E ->
  Forall (request_typed E) rs -> header_fields headers ->
  (forall l, Permutation (order l) l) -> (forall l, Permutation (order' l) l) ->
  concat chunks = concat chunks' ->
  (forall j r, nth_error rs j = Some r -> timeless E r \/ clock j = clock' j) ->
  sign_message E order headers rs chunks clock = sign_message E order' headers rs chunks' clock'.
Proof. exact signing_timeless. Qed.
Print Assumptions C105_timeless.

(** Another format and another time change nothing in the signature but the times,
    as said here, and the signature proper. *)
Theorem C105_restyled : forall E order headers r f chunks clock clock' res res', crypto_typed E ->
  request_typed E r -> request_typed E (restyled E r f) -> header_fields headers -> (forall l, Permutation (order l) l) ->
  sign_message E order headers [r] chunks clock = Val (Ok [res]) ->
  sign_message E order headers [restyled E r f] chunks clock' = Val (Ok [res']) ->
  (res = Err InsufficientContent <-> res' = Err InsufficientContent)
  /\ (res = Err SigOverflow <-> res' = Err SigOverflow)
  /\ forall o o', res = Ok o -> res' = Ok o' ->
       so_signature o' = redone E r (clock' 0%nat) (so_signature o) (s_signature_data (so_signature o')).
Proof. exact signing_restyled. Qed.
Print Assumptions C105_restyled.

(** ** A sample *)

Definition signature_of (r : SignRequest toy_env) (now : N) : option DkimSig :=
  match sign_message toy_env (@rev _) sample_headers [r] [lit "Hi"] (fun _ => now) with
  | Val (Ok [Ok o]) => Some (so_signature o)
  | _ => None
  end.

Example C105_restyled_example :
  request_typed toy_env sample_request /\ request_typed toy_env (restyled toy_env sample_request default_format)
  /\ exists sig sig', signature_of sample_request 1000 = Some sig
       /\ signature_of (restyled toy_env sample_request default_format) (2^64 - 8) = Some sig'
       /\ s_signature_data sig <> s_signature_data sig'
       /\ sig' = redone toy_env sample_request (2^64 - 8) sig (s_signature_data sig')
       /\ s_timestamp sig' = Some (2^64 - 8) /\ s_expiration sig = Some 1009 /\ s_expiration sig' = Some (2^64 - 1).
Proof.
  split; [apply toy_request_typed; vm_compute; auto|]. split; [apply toy_request_typed; vm_compute; auto|].
  eexists _, _. split; [vm_compute; reflexivity|]. split; [vm_compute; reflexivity|].
  split; [vm_compute; discriminate|]. split; [vm_compute; reflexivity|]. repeat split; reflexivity.
Qed.

Example C105_timeless_example :
  let r := nth 1 sample_requests sample_request in
  timeless toy_env r /\ signature_of r 1000 = signature_of r 2000 /\ signature_of r 1000 <> None
  /\ ~ timeless toy_env sample_request /\ signature_of sample_request 1000 <> signature_of sample_request 2000.
Proof. cbv zeta. split; [exact I|]. split; [vm_compute; reflexivity|]. split; [vm_compute; discriminate|]. split; [intros []|vm_compute; discriminate]. Qed.
