(** Property C56: changes in transit. *)

From Coq Require Import String List Permutation.
From Verif Require Import Base Utf8 Canon BodyHash Header Domain Signature KeyRecord Crypto TagList Format Sign Verify
  SpecText SpecCanon SpecHash SpecHeader SpecTag SpecDomain SpecSig SpecRecord SpecFormat SpecSign SpecOutput SpecVerify SpecEnd SpecTransit
  CanonProofs HeaderCanonProofs HeaderProofs VerifyFacts TransitProofs Lib Sample PropDomain PropSign PropOutput PropVerify PropEnd.
Import ListNotations.
Open Scope N_scope.

(** ** C56 *)

(** A signature has the same result in two messages with the same fields of the
    names that matter and the same body, up to what its canonicalization
    disregards.  Other fields may be added, removed or moved. *)
Theorem C56_transit : forall E w w' config headers headers' chunks chunks' answer rs rs' i i' name name' value r r' s sig,
  evaluation E w headers config chunks answer rs -> result_for config headers rs i name value r ->
  evaluation E w' headers' config chunks' answer rs' -> result_for config headers' rs' i' name' value r' ->
  w_clock w i = w_clock w' i' ->
  signature_read E value s (Ok sig) ->
  let c := s_canonicalization sig in
  same_field (c_header c) (name, value) (name', value) ->
  same_fields (c_header c) (s_signed_headers sig ++ cf_headers_forbidden_to_be_unsigned config) headers headers' ->
  same_body (c_body c) (concat chunks) (concat chunks') ->
  r' = moved i' r.
Proof. exact transit. Qed.
Print Assumptions C56_transit.

(** The bodies are exactly those with the same canonical form. *)
Theorem C56_same_body : forall alg b b', same_body alg b b' <-> canonicalize_body alg [b] = canonicalize_body alg [b'].
Proof.
  intros alg b b'. assert (forall x, canonicalize_body alg [x] = Val (canonical_body alg x)) as X.
  { intros x. destruct alg; [rewrite simple_body_spec|rewrite relaxed_body_spec]; cbn [concat]; rewrite app_nil_r; reflexivity. }
  rewrite !X. split.
  - intros H. rewrite (same_body_canonical _ _ _ H). reflexivity.
  - intros H. apply canonical_same_body. injection H. exact (fun x => x).
Qed.
Print Assumptions C56_same_body.

(** ... and the fields those with the same canonical form *)
Theorem C56_same_field : forall alg f f', valid_name (fst f) -> valid_name (fst f') ->
  (same_field alg f f' <-> canonicalize_header alg (fst f) (snd f) = canonicalize_header alg (fst f') (snd f')).
Proof.
  intros [] [n v] [n' v'] H H'; cbn [fst snd same_field] in *.
  - rewrite simple_header_iff by assumption. split; [intros X; injection X; auto|intros [-> ->]; reflexivity].
  - rewrite relaxed_header_iff by assumption. reflexivity.
Qed.
Print Assumptions C56_same_field.

(** Fields may be put on top of the header even if the signature covers fields of
    that name, unless it covers more of them than there were. *)
Theorem C56_on_top : forall E w w' config headers extra chunks answer rs rs' i name value r r' s sig,
  evaluation E w headers config chunks answer rs -> result_for config headers rs i name value r ->
  let i' := (length extra + i)%nat in
  evaluation E w' (extra ++ headers) config chunks answer rs' -> result_for config (extra ++ headers) rs' i' name value r' ->
  w_clock w i = w_clock w' i' ->
  signature_read E value s (Ok sig) ->
  not_oversigned (s_signed_headers sig) headers extra ->
  (forall n f, In n (cf_headers_forbidden_to_be_unsigned config) -> In f extra -> ~ same_name (fst f) n) ->
  r' = moved i' r.
Proof. exact transit_on_top. Qed.
Print Assumptions C56_on_top.

(** A field that cannot be read as a signature has the same result in any message. *)
Theorem C56_unreadable : forall E w w' config config' headers headers' chunks chunks' answer answer' rs rs' i i' name name' value r r' s e,
  evaluation E w headers config chunks answer rs -> result_for config headers rs i name value r ->
  evaluation E w' headers' config' chunks' answer' rs' -> result_for config' headers' rs' i' name' value r' ->
  signature_read E value s (Err e) -> r' = moved i' r.
Proof. exact transit_unreadable. Qed.
Print Assumptions C56_unreadable.

(** a message signed with relaxed/simple, and how it may arrive *)
Definition sent_headers : list HeaderField := signature_field fresh_output :: sample_headers.
Definition arrived_headers : list HeaderField :=
  [(lit "Received", lit " x"); (lit "SUBJECT", [13; 10; 9] ++ lit "=|;" ++ [32]);
   (lit "from", lit "me@example.com"); signature_field fresh_output; (lit "To", lit " a, b"); (lit "X", [])].
Definition arrived_chunks : list (list byte) := output_chunks ++ [[13; 10; 13]; [10]].
Definition sent_results : list VerificationResult :=
  match verify_message ascii_env (sample_world 20 good_records) sent_headers default_config output_chunks with Val (Some rs) => rs | _ => [] end.
Definition arrived_results : list VerificationResult :=
  match verify_message ascii_env (sample_world 20 good_records) arrived_headers default_config arrived_chunks with Val (Some rs) => rs | _ => [] end.

Lemma headers_checked : forall h,
  forallb (fun f => match field_name_new (fst f), field_body_new (snd f) with
                    | Some _, Some _ => forallb (fun b => b <? 256) (snd f)
                    | _, _ => false end) h = true -> header_fields h.
Proof.
  intros h H. rewrite forallb_forall in H. apply Forall_forall. intros [n v] Hf. specialize (H _ Hf). cbn [fst snd] in *.
  destruct (field_name_new n) eqn:X; [|discriminate]. destruct (field_body_new v) eqn:Y; [|discriminate].
  apply field_name_new_spec in X. apply field_body_new_spec in Y. split; [tauto|]. split; [tauto|].
  apply Forall_forall. intros b Hb. rewrite forallb_forall in H. specialize (H b Hb). unfold is_byte. lia.
Qed.

Example C56_example :
  evaluation ascii_env (sample_world 20 good_records) sent_headers default_config output_chunks
    (fun p => sample_zone good_records (key_name p)) sent_results
  /\ evaluation ascii_env (sample_world 20 good_records) arrived_headers default_config arrived_chunks
    (fun p => sample_zone good_records (key_name p)) arrived_results
  /\ (exists sig, map vr_signature sent_results = [Some sig] /\ s_canonicalization sig = mkCanon Relaxed Simple
       /\ same_fields Relaxed (s_signed_headers sig ++ [lit "From"]) sent_headers arrived_headers)
  /\ same_body Simple (concat output_chunks) (concat arrived_chunks)
  /\ map vr_status sent_results = [Success] /\ arrived_results = map (moved 3) sent_results.
Proof.
  split; [apply steady_evaluation; [apply sample_world_ok|apply headers_checked; vm_compute; reflexivity|apply sample_steady|vm_compute; reflexivity]|].
  split; [apply steady_evaluation; [apply sample_world_ok|apply headers_checked; vm_compute; reflexivity|apply sample_steady|vm_compute; reflexivity]|].
  split; [|split; [|split; vm_compute; reflexivity]].
  - eexists. split; [vm_compute; reflexivity|]. split; [reflexivity|]. cbn [s_signed_headers app].
    intros n [<-|[<-|[<-|[<-|[]]]]]; vm_compute; repeat constructor.
  - apply sb_trans with (concat output_chunks ++ [13; 10]); [apply sb_crlf; discriminate|].
    apply (sb_crlf Simple (concat output_chunks ++ [13; 10])); discriminate.
Qed.
