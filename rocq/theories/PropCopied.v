(** Properties C68, C69: header fields that do not matter, copied header fields. *)

From Coq Require Import String List Permutation.
From Verif Require Import Base Utf8 Canon BodyHash Header Domain Signature KeyRecord Crypto TagList Format Sign Verify
  SpecText SpecCanon SpecHash SpecHeader SpecTag SpecDomain SpecSig SpecRecord SpecFormat SpecSign SpecOutput SpecVerify SpecEnd SpecCopied
  HeaderProofs VerifyFacts CopiedProofs Lib Sample PropDomain PropSign PropOutput PropVerify PropEnd.
Import ListNotations.
Open Scope N_scope.

(** ** C68 *)

(** Headers with the same fields among those signed by some request: the outcome of
    the whole signing process is the same, errors included. *)
Theorem C68_only_signed_fields : forall E order headers headers' hs rs chunks clock,
  header_fields headers -> header_fields headers' ->
  selected (of_interest E rs) headers hs -> selected (of_interest E rs) headers' hs ->
  sign_message E order headers rs chunks clock = sign_message E order headers' rs chunks clock.
Proof. exact signing_selected. Qed.
Print Assumptions C68_only_signed_fields.

Definition other_headers : list HeaderField :=
  [(lit "X", lit " 1"); (lit "From", lit " me@example.com"); (lit "received", lit " by y");
   (lit "To", lit " a," ++ [13; 10; 32] ++ lit "b"); (lit "Subject", lit " =|;"); (lit "DKIM-Signature", lit " v=1")].

Example C68_example :
  header_fields sample_headers /\ header_fields other_headers /\ sample_headers <> other_headers
  /\ selected (of_interest ascii_env [output_request]) sample_headers (skipn 1 sample_headers)
  /\ selected (of_interest ascii_env [output_request]) other_headers (skipn 1 sample_headers)
  /\ sign_message ascii_env (fun l => l) other_headers [output_request] output_chunks (fun _ => 1000) = Val (Ok [Ok output_sample]).
Proof.
  assert (forall n v, field_name_new n = Some n -> field_body_new v = Some v -> forallb (fun b => b <? 256) v = true ->
    field_name n /\ field_body v /\ Forall is_byte v) as X.
  { intros n v H1 H2 H3. apply field_name_new_spec in H1. apply field_body_new_spec in H2. split; [tauto|]. split; [tauto|].
    apply Forall_forall. intros b Hb. rewrite forallb_forall in H3. specialize (H3 b Hb). unfold is_byte. lia. }
  assert (forall f : HeaderField, of_interest ascii_env [output_request] f <-> existsb (leqb (lower (fst f))) signed_by_default = true) as I.
  { intros f. rewrite existsb_exists. split.
    - intros [H|(r & [<-|[]] & H)].
      + exists (lit "from"). split; [left; reflexivity|]. unfold same_name in H. rewrite H. reflexivity.
      + exists (lower (fst f)). split; [exact H|apply leqb_refl].
    - intros (m & M1 & M2). apply leqb_eq in M2. right. exists output_request. split; [left; reflexivity|]. unfold signs. cbn [r_header_selection output_request].
      rewrite M2. exact M1. }
  assert (forall l l', filter (fun f : HeaderField => existsb (leqb (lower (fst f))) signed_by_default) l = l' ->
    selected (of_interest ascii_env [output_request]) l l') as Y.
  { intros l l' <-. apply SignProofs.selected_filter. intros f _. symmetry. apply I. }
  split; [exact sample_header_fields|]. split; [repeat (constructor; [apply X; vm_compute; reflexivity|]); constructor|].
  split; [discriminate|]. split; [apply Y; vm_compute; reflexivity|]. split; [apply Y; vm_compute; reflexivity|]. vm_compute. reflexivity.
Qed.

(** ** C69 *)

(** The field made with [copy_headers] is found in some other message.  Whatever the
    result there, it reports the signed fields of the original header, in order; and
    these, in place of the other message's header, are enough for success if
    the original message itself meets the requirements. *)
Theorem C69_recovered : forall E w0 config0 above below chunks0 answer0 rs0 res0 headers chunks clock j r o,
  idna_ok (env_idna E) -> crypto_nonempty (env_crypto E) ->
  readable_output E headers chunks clock j r o -> r_copy_headers E r = true ->
  let field := signature_field o in
  let names := s_signed_headers (so_signature o) in
  evaluation E w0 (above ++ field :: below) config0 chunks0 answer0 rs0 ->
  result_for config0 (above ++ field :: below) rs0 (length above) (fst field) (snd field) res0 ->
  exists sig', vr_signature res0 = Some sig'
    /\ selected (fun f => exists n, In n names /\ same_name (fst f) n) headers (s_copied_headers sig')
    /\ forall w config chunks' answer rs res,
         not_oversigned names headers [field] -> concat chunks' = concat chunks ->
         signature_good E (field :: headers) config (w_clock w 0) (so_signature o) ->
         content_covered E r config (concat chunks) -> key_published E r config answer ->
         evaluation E w (field :: s_copied_headers sig') config chunks' answer rs ->
         result_for config (field :: s_copied_headers sig') rs 0 (fst field) (snd field) res ->
         vr_status res = Success.
Proof. exact recovered. Qed.
Print Assumptions C69_recovered.

(** With automatic header selection and the default configuration *)
Theorem C69_default : forall E w headers chunks chunks' clock j r o answer rs,
  idna_ok (env_idna E) -> crypto_nonempty (env_crypto E) ->
  readable_output E headers chunks clock j r o -> r_copy_headers E r = true ->
  r_header_selection E r = Auto -> r_algorithm E r <> RsaSha1 ->
  (forall l, s_body_length (so_signature o) = Some l -> l <= env_usize_max E) ->
  in_time E r (clock j) default_config (w_clock w 0) ->
  concat chunks' = concat chunks ->
  key_published E r default_config answer ->
  evaluation E w (signature_field o :: s_copied_headers (so_signature o)) default_config chunks' answer rs ->
  exists res rest, rs = res :: rest /\ vr_index res = 0%nat /\ vr_status res = Success.
Proof. exact recovered_default. Qed.
Print Assumptions C69_default.

(** a message whose sender and subject are other ones *)
Definition damaged_headers : list HeaderField :=
  [(lit "X", lit " 1"); signature_field output_sample; (lit "From", lit " you@example.org"); (lit "Subject", lit " REPLACED")].
Definition results_of (headers : list HeaderField) : list VerificationResult :=
  match verify_message ascii_env (sample_world 20 good_records) headers default_config output_chunks with
  | Val (Some rs) => rs
  | _ => []
  end.
Definition restored_headers : list HeaderField := signature_field output_sample :: s_copied_headers (so_signature output_sample).

Example C69_example :
  readable_output ascii_env sample_headers output_chunks (fun _ => 1000) 0 output_request output_sample
  /\ r_copy_headers ascii_env output_request = true
  /\ evaluation ascii_env (sample_world 20 good_records) damaged_headers default_config output_chunks
       (fun p => sample_zone good_records (key_name p)) (results_of damaged_headers)
  /\ result_for default_config damaged_headers (results_of damaged_headers) 1 (so_header_name output_sample)
       (as_bytes (so_header_value output_sample)) (hd (mkVResult Success 0 None None) (results_of damaged_headers))
  /\ map vr_status (results_of damaged_headers) = [Failure (VerificationFailure CryptoVerificationFailure)]
  /\ not_oversigned (s_signed_headers (so_signature output_sample)) sample_headers [signature_field output_sample]
  /\ signature_good ascii_env (signature_field output_sample :: sample_headers) default_config 1003 (so_signature output_sample)
  /\ content_covered ascii_env output_request default_config (concat output_chunks)
  /\ key_published ascii_env output_request default_config (fun p => sample_zone good_records (key_name p))
  /\ evaluation ascii_env (sample_world 20 good_records) restored_headers default_config output_chunks
       (fun p => sample_zone good_records (key_name p)) (results_of restored_headers)
  /\ map vr_status (results_of restored_headers) = [Success].
Proof.
  assert (forall n v, field_name_new n = Some n -> field_body_new v = Some v -> forallb (fun b => b <? 256) v = true ->
    field_name n /\ field_body v /\ Forall is_byte v) as X.
  { intros n v H1 H2 H3. apply field_name_new_spec in H1. apply field_body_new_spec in H2. split; [tauto|]. split; [tauto|].
    apply Forall_forall. intros b Hb. rewrite forallb_forall in H3. specialize (H3 b Hb). unfold is_byte. lia. }
  assert (header_fields damaged_headers) as F1 by (repeat (constructor; [apply X; vm_compute; reflexivity|]); constructor).
  assert (header_fields restored_headers) as F2 by (repeat (constructor; [apply X; vm_compute; reflexivity|]); constructor).
  split; [exact output_readable|]. split; [reflexivity|]. split.
  { apply steady_evaluation; [apply sample_world_ok|exact F1|apply sample_steady|vm_compute; reflexivity]. }
  split; [exists 0%nat; split; vm_compute; reflexivity|]. split; [vm_compute; reflexivity|]. split.
  { intros n f Hn [<-|[]] S. exfalso. assert (In n [lit "Subject"; lit "To"; lit "From"]) as Y by exact Hn. unfold same_name in S.
    repeat (destruct Y as [<-|Y]; [vm_compute in S; discriminate S|]). destruct Y. }
  split. { apply sample_good; try (vm_compute; reflexivity); intros x Z; vm_compute in Z; injection Z as <-; reflexivity. }
  split; [intros Z; discriminate Z|]. split; [apply sample_published; reflexivity|]. split.
  { apply steady_evaluation; [apply sample_world_ok|exact F2|apply sample_steady|vm_compute; reflexivity]. }
  vm_compute. reflexivity.
Qed.
