(** Property C92: line breaks at the end of the body. *)

From Coq Require Import String List NArith.
From Verif Require Import Base Canon Header Signature KeyRecord Crypto Format Sign Verify
  SpecCanon SpecHash SpecHeader SpecSign SpecVerify SpecEnd SpecDkim SpecTransit SpecAuthor SpecChange
  CanonProofs TransitProofs ChangeProofs FinalProofs Lib Sample PropDomain PropSign PropOutput PropVerify PropEnd PropTransit.
Import ListNotations.
Open Scope N_scope.

(** A line break at the end makes no difference, except if the body is empty (simple) or
    has but whitespace after the last line break (relaxed). *)
Theorem C92_break : forall alg b, canonicalize_body alg [b ++ [13; 10]] = canonicalize_body alg [b] <-> ~ exceptional alg b.
Proof.
  intros alg b. rewrite <- C56_same_body, <- final_break. split; [apply same_body_canonical|apply canonical_same_body].
Qed.
Print Assumptions C92_break.

(** Of bodies with the same simple form, the relaxed forms are the same exactly if both or
    neither have but whitespace after the last line break. *)
Theorem C92_simple_relaxed : forall b b', canonicalize_body Simple [b] = canonicalize_body Simple [b'] ->
  (canonicalize_body Relaxed [b] = canonicalize_body Relaxed [b'] <-> ends_in_wsp_line b = ends_in_wsp_line b').
Proof. intros b b'. rewrite <- !C56_same_body. apply simple_relaxed. Qed.
Print Assumptions C92_simple_relaxed.

(** A message with a valid signature, without l=, gets a line break at the end: the
    signature stays valid exactly if the body is not one of the exceptions, or there is
    a collision of the hash. *)
Theorem C92_message : forall E config zone now headers body name value r r' sig,
  result_of E config zone now headers body name value r -> vr_status r = Success -> vr_signature r = Some sig -> s_body_length sig = None ->
  result_of E config zone now headers (body ++ [13; 10]) name value r' ->
  let alg := c_body (s_canonicalization sig) in
  (vr_status r' = Success
   <-> ~ exceptional alg body
       \/ collision E (alg_hash (s_algorithm sig)) (canonical_body alg body) (canonical_body alg (body ++ [13; 10]))).
Proof.
  intros E config zone now headers body name value r r' sig R S Sg L R'. cbv zeta.
  rewrite (body_change _ _ _ _ _ _ _ _ _ _ _ _ R S Sg R'). apply break_kept. exact L.
Qed.
Print Assumptions C92_message.

(** So relaxed does not forgive everything that simple does. *)
Theorem C92_stricter : exists b b', canonicalize_body Simple [b] = canonicalize_body Simple [b']
  /\ canonicalize_body Relaxed [b] <> canonicalize_body Relaxed [b'].
Proof. exists [97; 13; 10; 32], [97; 13; 10; 32; 13; 10]. vm_compute. split; [reflexivity|discriminate]. Qed.
Print Assumptions C92_stricter.

(** a message with a valid signature, and with a line break added *)
Example C92_example : exists sig r r',
  result_of ascii_env default_config (sample_zone good_records) 1003 sent_headers (concat output_chunks) (lit "DKIM-Signature") (snd (signature_field fresh_output)) r
  /\ vr_status r = Success /\ vr_signature r = Some sig /\ s_body_length sig = None
  /\ result_of ascii_env default_config (sample_zone good_records) 1003 sent_headers (concat output_chunks ++ [13; 10]) (lit "DKIM-Signature") (snd (signature_field fresh_output)) r'
  /\ ~ exceptional Simple (concat output_chunks) /\ exceptional Relaxed [97; 13; 10; 32].
Proof.
  set (again := match verify_message ascii_env (sample_world 20 good_records) sent_headers default_config (output_chunks ++ [[13; 10]]) with Val (Some rs) => rs | _ => [] end).
  assert (header_fields sent_headers) as F by (apply headers_checked; vm_compute; reflexivity).
  destruct sent_results as [|r [|? ?]] eqn:E1; [vm_compute in E1; discriminate E1| |vm_compute in E1; discriminate E1].
  destruct again as [|r' [|? ?]] eqn:E2; [vm_compute in E2; discriminate E2| |vm_compute in E2; discriminate E2].
  assert (exists sig, vr_signature r = Some sig /\ s_body_length sig = None) as (sig & Sg & L).
  { assert (r = hd r sent_results) as -> by (rewrite E1; reflexivity). eexists. split; [vm_compute; reflexivity|reflexivity]. }
  exists sig, r, r'. split.
  { exists (sample_world 20 good_records), output_chunks, [r], 0%nat. split; [apply sample_world_ok|]. split; [apply sample_steady|]. split; [exact F|].
    split; [reflexivity|]. split; [rewrite <- E1; vm_compute; reflexivity|]. split; [|reflexivity]. exists 0%nat. split; reflexivity. }
  split; [assert (r = hd r sent_results) as -> by (rewrite E1; reflexivity); vm_compute; reflexivity|]. split; [exact Sg|]. split; [exact L|]. split.
  { exists (sample_world 20 good_records), (output_chunks ++ [[13; 10]]), [r'], 0%nat. split; [apply sample_world_ok|]. split; [apply sample_steady|]. split; [exact F|].
    split; [reflexivity|]. split; [rewrite <- E2; vm_compute; reflexivity|]. split; [|reflexivity]. exists 0%nat. split; reflexivity. }
  split; [discriminate|reflexivity].
Qed.
