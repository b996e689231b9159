(** Property C82: bodies that the counters cannot count. *)

From Coq Require Import String List Permutation.
From Verif Require Import Base Utf8 Canon BodyHash Header Domain Signature KeyRecord Crypto TagList Format Sign Verify Usize
  SpecText SpecCanon SpecHash SpecHeader SpecSign SpecVerify
  BodyHashProofs UsizeProofs UsizeFold Lib Sample PropDomain PropSign PropOutput PropVerify.
Import ListNotations.
Open Scope N_scope.

(** ** C82 *)

(** The full statement: for all bodies

      [verify_message_usize E checks w headers config chunks = verify_message E w headers config chunks]

    and likewise for signing.  It holds of bodies that can be counted, with checks of
    overflows and without: *)
Theorem C82_verifying_partial : forall E checks w headers config chunks,
  N.of_nat (length (concat chunks)) + 2 <= env_usize_max E ->
  verify_message_usize E checks w headers config chunks = verify_message E w headers config chunks.
Proof. exact verify_short. Qed.
Print Assumptions C82_verifying_partial.

Theorem C82_signing_partial : forall E checks order headers rs chunks clock,
  N.of_nat (length (concat chunks)) + 2 <= env_usize_max E ->
  sign_message_usize E checks order headers rs chunks clock = sign_message E order headers rs chunks clock.
Proof. exact sign_short. Qed.
Print Assumptions C82_signing_partial.

(** With checks, the result is right if there is one, *)
Theorem C82_checked_verifying : forall E w headers config chunks o,
  verify_message_usize E true w headers config chunks = Val o -> verify_message E w headers config chunks = Val o.
Proof. exact verify_checked. Qed.
Print Assumptions C82_checked_verifying.

Theorem C82_checked_signing : forall E order headers rs chunks clock o,
  sign_message_usize E true order headers rs chunks clock = Val o -> sign_message E order headers rs chunks clock = Val o.
Proof. exact sign_checked. Qed.
Print Assumptions C82_checked_signing.

(** but there is none if all of the canonical body is to be hashed and it is too large. *)
Theorem C82_large_verifying : forall E w headers config chunks rs r sig larger,
  verify_message E w headers config chunks = Val (Some rs) -> In r rs -> vr_status r = Success -> vr_signature r = Some sig ->
  s_body_length sig = None ->
  env_usize_max E < N.of_nat (length (canonical_body (c_body (s_canonicalization sig)) (concat larger))) ->
  verify_message_usize E true w headers config larger = Panic.
Proof. exact verify_counts. Qed.
Print Assumptions C82_large_verifying.

Theorem C82_large_signing : forall E order headers rs chunks clock results r larger,
  Forall (request_typed E) rs -> (forall l, Permutation (order l) l) ->
  sign_message E order headers rs chunks clock = Val (Ok results) -> In r rs -> (forall n, r_body_length E r <> ExactLen n) ->
  env_usize_max E < N.of_nat (length (canonical_body (c_body (r_canonicalization E r)) (concat larger))) ->
  sign_message_usize E true order headers rs larger clock = Panic.
Proof. exact sign_counts. Qed.
Print Assumptions C82_large_signing.

(** Without checks, verification is right for bodies of up to twice the largest value. *)
Theorem C82_verifying_twice_partial : forall E w headers config chunks, world_ok w ->
  N.of_nat (length (concat chunks)) <= 2 * env_usize_max E ->
  verify_message_usize E false w headers config chunks = verify_message E w headers config chunks.
Proof. intros E w headers config chunks (_ & O). exact (verify_folded E w headers config chunks O). Qed.
Print Assumptions C82_verifying_twice_partial.

(** Signing is right for them except where the signature is to tell the length of the
    body; the length that it then tells is what the counter holds, though all of the body is
    hashed. *)
Theorem C82_signing_twice_partial : forall E order headers rs chunks clock results results',
  Forall (request_typed E) rs -> (forall l, Permutation (order l) l) ->
  N.of_nat (length (concat chunks)) <= 2 * env_usize_max E ->
  sign_message E order headers rs chunks clock = Val (Ok results) -> sign_message_usize E false order headers rs chunks clock = Val (Ok results') ->
  length results' = length rs /\
  forall j r res res', nth_error rs j = Some r -> nth_error results j = Some res -> nth_error results' j = Some res' ->
    let cb := canonical_body (c_body (r_canonicalization E r)) (concat chunks) in
    (r_body_length E r <> MessageContent -> res' = res)
    /\ (r_body_length E r = MessageContent -> forall o, res' = Ok o ->
        s_body_length (so_signature o) = Some (N.of_nat (length cb) mod (env_usize_max E + 1))
        /\ s_body_hash (so_signature o) = hash_fn (env_crypto E) (alg_hash (r_algorithm E r)) cb).
Proof. exact sign_folded. Qed.
Print Assumptions C82_signing_twice_partial.

(** What is missing: without checks, as many empty lines as there are values of the
    counter go unnoticed wherever a line begins, in whatever chunks they come. *)
Theorem C82_unnoticed_verifying : forall E w headers config before lines after p,
  concat before = p ++ [13; 10] -> concat lines = concat (repeat [13; 10] (N.to_nat (env_usize_max E + 1))) ->
  verify_message_usize E false w headers config (before ++ lines ++ after)
  = verify_message_usize E false w headers config (before ++ after).
Proof. intros E w headers config before lines after p P L. rewrite <- crlfs_repeat in L. exact (verify_ignores E w headers config before lines after p P L). Qed.
Print Assumptions C82_unnoticed_verifying.

Theorem C82_unnoticed_signing : forall E order headers rs clock before lines after p,
  concat before = p ++ [13; 10] -> concat lines = concat (repeat [13; 10] (N.to_nat (env_usize_max E + 1))) ->
  sign_message_usize E false order headers rs (before ++ lines ++ after) clock
  = sign_message_usize E false order headers rs (before ++ after) clock.
Proof. intros E order headers rs clock before lines after p P L. rewrite <- crlfs_repeat in L. exact (sign_ignores E order headers rs clock before lines after p P L). Qed.
Print Assumptions C82_unnoticed_signing.

(** With checks, they are a panic: for each message that has a good signature without
    [l=] for some body, *)
Theorem C82_panic_verifying : forall E w headers config chunks rs r sig before lines after p,
  verify_message E w headers config chunks = Val (Some rs) -> In r rs -> vr_status r = Success -> vr_signature r = Some sig ->
  s_body_length sig = None ->
  concat before = p ++ [13; 10] -> concat lines = concat (repeat [13; 10] (N.to_nat (env_usize_max E + 1))) ->
  verify_message_usize E true w headers config (before ++ lines ++ after) = Panic.
Proof.
  intros E w headers config chunks rs r sig before lines after p H I S G N P L. rewrite <- crlfs_repeat in L.
  exact (verify_panics E w headers config chunks rs r sig before lines after p H I S G N P L).
Qed.
Print Assumptions C82_panic_verifying.

(** and for all requests that can be signed for some body, if one does not fix the length
    of the body signed. *)
Theorem C82_panic_signing : forall E order headers rs chunks clock results r before lines after p,
  Forall (request_typed E) rs -> (forall l, Permutation (order l) l) ->
  sign_message E order headers rs chunks clock = Val (Ok results) -> In r rs -> (forall n, r_body_length E r <> ExactLen n) ->
  concat before = p ++ [13; 10] -> concat lines = concat (repeat [13; 10] (N.to_nat (env_usize_max E + 1))) ->
  sign_message_usize E true order headers rs (before ++ lines ++ after) clock = Panic.
Proof.
  intros E order headers rs chunks clock results r before lines after p T O H I N P L. rewrite <- crlfs_repeat in L.
  exact (sign_panics E order headers rs chunks clock results r before lines after p T O H I N P L).
Qed.
Print Assumptions C82_panic_signing.

(** *** A message of which this makes a valid one *)

(** a hash function that tells short data from long ones *)
Definition size_hash (a : HashAlg) (data : list byte) : list byte := [if N.of_nat (length data) <=? 1000 then 1 else 0].
Definition size_crypto : Crypto :=
  mkCrypto size_hash N N N N (fun _ => 5%nat) (fun _ k d => Some (toy_sign k d)) toy_sign
    (fun data => match data with 1 :: k :: _ => Some k | _ => None end) (fun _ => None) toy_read toy_read (fun k => 32 * k)
    (fun pk _ d s => leqb s (toy_sign pk d)) (fun pk d s => leqb s (toy_sign pk d)).
Definition size_env (max : N) : Env := mkEnv false max sample_idna size_crypto.

Definition size_headers : list HeaderField :=
  [(lit "DKIM-Signature", lit " v=1; a=rsa-sha256; d=example.com; s=s; h=From; bh=AQ==; b=yAE="); (lit "From", lit " me@example.com")].
Definition size_world : World :=
  mkWorld (mkResolver (fun _ _ => Ok [Ok (lit "p=Acg=")]) (fun _ _ => 1)) (fun _ => 1003) (fun l => l) (fun l => l).

Definition hi : list byte := lit "Hi" ++ [13; 10].
Definition bye : list byte := lit "Bye" ++ [13; 10].

Definition statuses (o : outcome (option (list VerificationResult))) : option (list VerificationStatus) :=
  match o with Val (Some rs) => Some (map vr_status rs) | _ => None end.

Lemma size_short : forall max, statuses (verify_message (size_env max) size_world size_headers default_config [hi; bye]) = Some [Success].
Proof. intros max. vm_compute. reflexivity. Qed.

(** the body hash is that of a short body *)
Lemma size_long : forall max chunks, 1000 < N.of_nat (length (canonical_body Simple (concat chunks))) ->
  statuses (verify_message (size_env max) size_world size_headers default_config chunks) = Some [Failure BodyHashMismatch].
Proof.
  intros max chunks L. unfold verify_message.
  assert (exists b log t sig k, verify_header (size_env max) size_world size_headers default_config
    = Val (Some (mkVerifier [mkVResult Success 0 (Some sig) k] (bhb_build b [(None, Sha256, Simple)]), log, t))
    /\ s_body_hash sig = [1] /\ body_hasher_key max sig = Val (None, Sha256, Simple)) as (b & log & t & sig & k & V & S & K).
  { exists (mkBHB false [(None, Sha256, Simple)]). eexists _, _, _, _. split; [vm_compute; reflexivity|]. split; reflexivity. }
  rewrite V. cbn [bind]. rewrite verifier_hashed. cbn [vf_body_hasher vf_tasks].
  destruct (hash_body_results size_hash b [(None, Sha256, Simple)] chunks) as (sts & bh & H1 & _ & H2). rewrite H1. cbn [bind].
  unfold verifier_finish. cbn [vf_body_hasher vf_tasks]. change (hash_fn (env_crypto (size_env max))) with size_hash. rewrite H2. cbn [bind finish_tasks vr_status vr_signature].
  unfold verify_body_hash. change (env_usize_max (size_env max)) with max. rewrite K. cbn [bind map results_get find fst snd key_eqb option_map].
  unfold expected_result, size_hash at 1.
  destruct (N.leb_spec (N.of_nat (length (canonical_body Simple (concat chunks)))) 1000) as [X|_]; [lia|]. rewrite S. reflexivity.
Qed.
Definition many_lines (max : N) : list byte := concat (repeat [13; 10] (N.to_nat (max + 1))).

Lemma many_lines_canonical : forall n,
  canonical_body Simple (hi ++ concat (repeat [13; 10] n) ++ bye) = hi ++ concat (repeat [13; 10] n) ++ bye.
Proof.
  intros n. rewrite app_assoc. set (x := hi ++ concat (repeat [13; 10] n)). cbn [canonical_body]. unfold impl_simple_body, only_crlfs, rfc_simple_body, strip_trailing_crlfs.
  assert (strip_rev (rev (x ++ bye)) = [101; 121; 66] ++ rev x) as E. { rewrite rev_app_distr. reflexivity. }
  rewrite E, rev_app_distr, rev_involutive. cbn [rev app].
  rewrite <- app_assoc. destruct x as [|a y]; reflexivity.
Qed.

(** Refuted: for each width of the counters from sixteen bits, a message is invalid but
    found valid in a build without checks, and is a panic in one with checks. *)
Theorem C82_refuted : forall max, 65535 <= max ->
  exists E w headers config chunks, env_usize_max E = max
  /\ statuses (verify_message E w headers config chunks) = Some [Failure BodyHashMismatch]
  /\ statuses (verify_message_usize E false w headers config chunks) = Some [Success]
  /\ verify_message_usize E true w headers config chunks = Panic.
Proof.
  intros max M. exists (size_env max), size_world, size_headers, default_config, ([hi] ++ [many_lines max] ++ [bye]).
  assert (concat [hi] = lit "Hi" ++ [13; 10]) as P by reflexivity. assert (concat [many_lines max] = many_lines max) as L by apply app_nil_r.
  split; [reflexivity|]. split; [|split].
  - apply size_long. cbn [app concat]. rewrite app_nil_r. unfold many_lines. rewrite many_lines_canonical, !app_length, <- crlfs_repeat, crlfs_length. lia.
  - rewrite (C82_unnoticed_verifying (size_env max) size_world size_headers default_config [hi] [many_lines max] [bye] (lit "Hi") P L).
    cbn [app]. rewrite C82_verifying_partial; [apply size_short|]. change (N.of_nat (length (concat [hi; bye]))) with 9. cbn [env_usize_max size_env]. lia.
  - pose proof (size_short max) as S. unfold statuses in S.
    destruct (verify_message (size_env max) size_world size_headers default_config [hi; bye]) as [[rs|]|] eqn:V; try discriminate S.
    destruct rs as [|r [|]]; try discriminate S. injection S as S.
    assert (exists sig, vr_signature r = Some sig /\ s_body_length sig = None) as (sig & G & N).
    { vm_compute in V. injection V as <-. eexists. split; reflexivity. }
    exact (C82_panic_verifying (size_env max) size_world size_headers default_config [hi; bye] [r] r sig [hi] [many_lines max] [bye] (lit "Hi") V (or_introl eq_refl) S G N P L).
Qed.
Print Assumptions C82_refuted.

(** counters up to twenty *)
Definition size_request : SignRequest (size_env 20) :=
  mkRequest (size_env 20) (SkRsa (C := size_crypto) 200) RsaSha256 (mkCanon Simple Relaxed) (lit "example.com") (Manual [lit "From"])
    None MessageContent (lit "s") TsNone None false [] default_format.
Definition signed_length (o : outcome (result (list (result SigningOutput SigningError)) RequestError)) : option (list (option (option N))) :=
  match o with
  | Val (Ok rs) => Some (map (fun r => match r with Ok o => Some (s_body_length (so_signature o)) | Err _ => None end) rs)
  | _ => None
  end.
Definition size_sign (checks : bool) (chunks : list (list byte)) :=
  signed_length (sign_message_usize (size_env 20) checks (fun l => l) (tl size_headers) [size_request] chunks (fun _ => 1000)).
Definition size_verify (checks : bool) (chunks : list (list byte)) :=
  statuses (verify_message_usize (size_env 20) checks size_world size_headers default_config chunks).

Example C82_example :
  (N.of_nat (length (concat [hi; bye])) + 2 <= env_usize_max (size_env 20))
  /\ signed_length (sign_message (size_env 20) (fun l => l) (tl size_headers) [size_request] [hi; bye] (fun _ => 1000)) = Some [Some (Some 9)]
  /\ map (fun checks => size_sign checks [hi; bye]) [true; false] = [Some [Some (Some 9)]; Some [Some (Some 9)]]
  /\ map (fun checks => size_sign checks [hi; many_lines 20; bye]) [true; false] = [None; Some [Some (Some 9)]]
  /\ signed_length (sign_message (size_env 20) (fun l => l) (tl size_headers) [size_request] [hi; many_lines 20; bye] (fun _ => 1000)) = Some [Some (Some 51)]
  /\ map (fun checks => size_sign checks [hi; many_lines 13; bye]) [true; false] = [None; Some [Some (Some 16)]]
  /\ signed_length (sign_message (size_env 20) (fun l => l) (tl size_headers) [size_request] [hi; many_lines 13; bye] (fun _ => 1000)) = Some [Some (Some 37)]
  /\ map (fun checks => size_verify checks [hi; bye]) [true; false] = [Some [Success]; Some [Success]]
  /\ map (fun checks => size_verify checks [hi; many_lines 20; bye]) [true; false] = [None; Some [Success]]
  /\ map (fun checks => size_verify checks [hi; many_lines 13; bye]) [true; false] = [None; Some [Success]]
  /\ (forall n, r_body_length (size_env 20) size_request <> ExactLen n).
Proof. split; [vm_compute; discriminate|]. do 9 (split; [vm_compute; reflexivity|]). discriminate. Qed.
