(** Property C101: when reading the body can stop. *)

From Coq Require Import String List Permutation.
From Verif Require Import Base Utf8 Canon BodyHash Header TagList Domain Signature KeyRecord Crypto Format Sign Verify
  SpecText SpecCanon SpecHash SpecHeader SpecTag SpecDomain SpecSig SpecRecord SpecSign SpecVerify SpecStop
  HeaderProofs BodyHashProofs SignProofs VerifyRun VerifyFacts StopProofs Lib Sample PropDomain PropSign PropOutput PropVerify.
Import ListNotations.
Open Scope N_scope.

(** ** C101 *)

(** The verifier is done only when all signatures confirmed by a key have a length, and what
    the body hash is about is certain however the body goes on; and then it is done, unless
    the last byte was CR, in which case one more byte must be certain. *)
Theorem C101_verifier : forall E w headers config v qs t answer chunks c, world_ok w -> header_fields headers ->
  verify_header E w headers config = Val (Some (v, lookup_log (w_resolver w) 0 0 qs, t)) -> answered (w_resolver w) qs answer ->
  exists v1 st v2, verifier_chunks v chunks = Val v1 /\ verifier_chunk v1 c = Val (st, v2)
    /\ (st = Done -> decided E 0 answer headers config (w_clock w) (concat (chunks ++ [c])))
    /\ (decided E 0 answer headers config (w_clock w) (concat (chunks ++ [c])) -> ~ ends_in_cr (concat (chunks ++ [c])) -> st = Done)
    /\ (decided E 1 answer headers config (w_clock w) (concat (chunks ++ [c])) -> st = Done).
Proof. exact verifier_stop. Qed.
Print Assumptions C101_verifier.

(** The results then are those of the whole message, whatever follows. *)
Theorem C101_verifier_results : forall E w headers config v log t chunks v1 c v2 more,
  verify_header E w headers config = Val (Some (v, log, t)) ->
  verifier_chunks v chunks = Val v1 -> verifier_chunk v1 c = Val (Done, v2) ->
  (let! rs := verifier_finish E v2 in Val (Some rs)) = verify_message E w headers config (chunks ++ c :: more).
Proof. exact verifier_stop_results. Qed.
Print Assumptions C101_verifier_results.

(** If no signature is confirmed by a key, nothing of the body is needed. *)
Theorem C101_none : forall E w headers config v qs t answer chunks c, world_ok w -> header_fields headers ->
  verify_header E w headers config = Val (Some (v, lookup_log (w_resolver w) 0 0 qs, t)) -> answered (w_resolver w) qs answer ->
  (forall i name value sig, In (i, (name, value)) (examined config headers) -> ~ key_confirmed E answer headers config (w_clock w i) name value sig) ->
  exists v1 v2, verifier_chunks v chunks = Val v1 /\ verifier_chunk v1 c = Val (Done, v2).
Proof.
  intros E w headers config v qs t answer chunks c W H V An N.
  destruct (verifier_stop E w headers config v qs t answer chunks c W H V An) as (v1 & st & v2 & H1 & H2 & _ & _ & D).
  exists v1, v2. split; [exact H1|]. rewrite H2, D; [reflexivity|]. intros i name value sig I K. destruct (N _ _ _ _ I K).
Qed.
Print Assumptions C101_none.

(** If one that has no length is, all of it is. *)
Theorem C101_whole : forall E w headers config v qs t answer chunks c i name value sig, world_ok w -> header_fields headers ->
  verify_header E w headers config = Val (Some (v, lookup_log (w_resolver w) 0 0 qs, t)) -> answered (w_resolver w) qs answer ->
  In (i, (name, value)) (examined config headers) -> key_confirmed E answer headers config (w_clock w i) name value sig ->
  s_body_length sig = None ->
  exists v1 v2, verifier_chunks v chunks = Val v1 /\ verifier_chunk v1 c = Val (Interested, v2).
Proof.
  intros E w headers config v qs t answer chunks c i name value sig W H V An I K L.
  destruct (verifier_stop E w headers config v qs t answer chunks c W H V An) as (v1 & st & v2 & H1 & H2 & D & _).
  exists v1, v2. split; [exact H1|]. rewrite H2. destruct st; [reflexivity|]. destruct (D eq_refl _ _ _ _ I K) as (l & X & _). congruence.
Qed.
Print Assumptions C101_whole.

(** The same for signing. *)
Theorem C101_signer : forall E order headers rs s chunks c, (forall l, Permutation (order l) l) -> Forall (request_typed E) rs ->
  prepare_signing E order headers rs = Val (Ok s) ->
  exists s1 st s2, signer_chunks E s chunks = Val s1 /\ signer_chunk E s1 c = Val (st, s2)
    /\ (st = Done -> requests_decided E 0 rs (concat (chunks ++ [c])))
    /\ (requests_decided E 0 rs (concat (chunks ++ [c])) -> ~ ends_in_cr (concat (chunks ++ [c])) -> st = Done)
    /\ (requests_decided E 1 rs (concat (chunks ++ [c])) -> st = Done).
Proof. exact signer_stop. Qed.
Print Assumptions C101_signer.

Theorem C101_signer_results : forall E order headers rs s chunks s1 c s2 more clock,
  prepare_signing E order headers rs = Val (Ok s) ->
  signer_chunks E s chunks = Val s1 -> signer_chunk E s1 c = Val (Done, s2) ->
  (let! results := sign E clock s2 in Val (Ok results)) = sign_message E order headers rs (chunks ++ c :: more) clock.
Proof. exact signer_stop_results. Qed.
Print Assumptions C101_signer_results.

(** ** CR at the end *)

(** A request for three bytes of the body. *)
Definition three : list (SignRequest toy_env) := firstn 1 (skipn 1 sample_requests).

Lemma three_typed : Forall (request_typed toy_env) three.
Proof. pose proof sample_typed as T. unfold sample_requests in T. apply Forall_inv_tail, Forall_inv in T. constructor; [exact T|constructor]. Qed.

(** After [ab] CR it is certain what they are, but the signer still wants to read. *)
Theorem C101_cr_refuted : ~ forall E order headers rs s c s1 st, (forall l, Permutation (order l) l) -> Forall (request_typed E) rs ->
  prepare_signing E order headers rs = Val (Ok s) -> signer_chunk E s c = Val (st, s1) -> requests_decided E 0 rs c -> st = Done.
Proof.
  intros H. destruct (prepare_signing toy_env (fun x => x) sample_headers three) as [[s|]|] eqn:P; [|vm_compute in P; discriminate P..].
  destruct (signer_chunk toy_env s [97; 98; 13]) as [[st s1]|] eqn:Q; [|vm_compute in P; injection P as <-; vm_compute in Q; discriminate Q].
  specialize (H toy_env (fun x => x) sample_headers three s [97; 98; 13] s1 st (fun l => Permutation_refl l) three_typed P Q).
  assert (st = Interested) as ->.
  { vm_compute in P. injection P as <-. vm_compute in Q. injection Q as <- _. reflexivity. }
  discriminate H. intros r [<-|[]]. exists 3. split; [reflexivity|].
  apply (held_cr Simple [97; 98; 13] [97; 98] (mkBodyCanon Simple SCr false 0)); reflexivity.
Qed.
Print Assumptions C101_cr_refuted.

(** ** Examples *)

(** What the verifier says to each chunk: signatures of the first four bytes; the same where
    unsigned content is forbidden; and where no signature is confirmed. *)
Definition stances (w : World) (config : Config) (chunks : list (list byte)) : list Stance :=
  match verify_header ascii_env w signed_headers config with
  | Val (Some (v, _, _)) => match hash_chunks (vf_body_hasher v) chunks with Val (sts, _) => sts | Panic => [] end
  | _ => []
  end.
Definition no_more : Config := mkConfig 10 10 [] [lit "From"] 1024 false true false false 300 None.

Example C101_example :
  let chunks := [lit "Hi"; [13]; [10]; lit "junk"] in
  stances (sample_world 20 good_records) default_config chunks = [Interested; Interested; Done; Done]
  /\ stances (sample_world 20 good_records) no_more chunks = [Interested; Interested; Interested; Done]
  /\ stances (sample_world 20 [lit "junk"]) default_config ([] :: chunks) = [Done; Done; Done; Done; Done]
  /\ certain Simple (lit "Hi" ++ [13; 10]) 4 /\ ~ certain Simple (lit "Hi" ++ [13; 10]) 5
  /\ world_ok (sample_world 20 good_records) /\ header_fields signed_headers.
Proof.
  cbv zeta. split; [vm_compute; reflexivity|]. split; [vm_compute; reflexivity|]. split; [vm_compute; reflexivity|].
  assert (run Simple (lit "Hi" ++ [13; 10]) (lit "Hi" ++ [13; 10]) (mkBodyCanon Simple SCrLf true 0)) as R by reflexivity.
  split; [apply (output_certain _ _ _ _ _ R); vm_compute; discriminate|]. split.
  - intros X. destruct (certain_output _ _ _ _ _ R X) as [_ Y].
    assert (~ ends_in_cr (lit "Hi" ++ [13; 10])) as N by (intros ([|a [|b [|d [|e q]]]] & Q); try discriminate Q; destruct q; discriminate Q).
    specialize (Y N). vm_compute in Y. apply Y. reflexivity.
  - split; [apply sample_world_ok|exact signed_header_fields].
Qed.

Example C101_signer_example : exists s s1 s2 s3 s4,
  prepare_signing toy_env (fun x => x) sample_headers three = Val (Ok s)
  /\ signer_chunk toy_env s [97; 98; 13] = Val (Interested, s1) /\ signer_chunk toy_env s1 [99] = Val (Done, s2)
  /\ prepare_signing toy_env (fun x => x) sample_headers sample_requests = Val (Ok s3)
  /\ signer_chunk toy_env s3 [97; 98; 99; 100] = Val (Interested, s4).
Proof. do 5 eexists. repeat split; vm_compute; reflexivity. Qed.
