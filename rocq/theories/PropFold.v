(** Property C102: whitespace in a signature's own header field. *)

From Coq Require Import String List.
From Verif Require Import Base Utf8 Canon BodyHash Header Domain Parse QP Signature KeyRecord Crypto TagList Format Sign Verify
  SpecText SpecCanon SpecHash SpecHeader SpecTag SpecDomain SpecSig SpecRecord SpecFormat SpecSign SpecOutput SpecVerify SpecEnd SpecTransit SpecFold
  HeaderCanonProofs QPProofs VerifyFacts TransitProofs FoldProofs Lib Sample PropDomain PropSign PropOutput PropVerify PropEnd PropTransit PropDebug.
Import ListNotations.
Open Scope N_scope.

(** ** C102 *)

(** Other whitespace in the same places, and at the start, does not change the
    signature that is read, except within tags that are not interpreted; ... *)
Theorem C102_read : forall E value s sig s', idna_keeps (env_idna E) -> signature_read E value s (Ok sig) -> same_folding s s' ->
  exists ext, signature_read E (as_bytes s') s' (Ok (with_ext_tags ext sig)) /\ Forall2 same_tag (s_ext_tags sig) ext.
Proof. intros E value s sig s' K R H. destruct (folding_read E _ _ _ _ K R H) as (ext & A & B & _). eauto. Qed.
Print Assumptions C102_read.

(** ... nor whether there is one; ... *)
Theorem C102_readable : forall E s s', idna_keeps (env_idna E) -> same_folding s s' ->
  ((exists sig, signature_read E (as_bytes s) s (Ok sig)) <-> exists sig, signature_read E (as_bytes s') s' (Ok sig)).
Proof.
  intros E s s' K H. split; intros (sig & R); [destruct (C102_read _ _ _ _ _ K R H) as (ext & A & _)|
    destruct (C102_read _ _ _ _ _ K R (folding_sym _ _ H)) as (ext & A & _)]; eauto.
Qed.
Print Assumptions C102_readable.

(** ... nor, with relaxed header canonicalization, what was signed ... *)
Theorem C102_signed_text : forall E value s sig s' name, idna_keeps (env_idna E) -> signature_read E value s (Ok sig) -> same_folding s s' ->
  canonical_field Relaxed (name, as_bytes (make_original_dkim_sig s)) = canonical_field Relaxed (name, as_bytes (make_original_dkim_sig s')).
Proof.
  intros E value s sig s' name K R H. destruct (folding_read E _ _ _ _ K R H) as (ext & _ & _ & W).
  apply same_field_canonical. split; [reflexivity|exact W].
Qed.
Print Assumptions C102_signed_text.

(** ... and so not the result either, together with the changes of C56. *)
Theorem C102_results : forall E w w' config headers headers' chunks chunks' answer rs rs' i i' name name' value r r' s sig s',
  idna_keeps (env_idna E) ->
  evaluation E w headers config chunks answer rs -> result_for config headers rs i name value r ->
  evaluation E w' headers' config chunks' answer rs' -> result_for config headers' rs' i' name' (as_bytes s') r' ->
  w_clock w i = w_clock w' i' ->
  signature_read E value s (Ok sig) -> same_folding s s' -> lower name = lower name' ->
  c_header (s_canonicalization sig) = Relaxed ->
  same_fields Relaxed (s_signed_headers sig ++ cf_headers_forbidden_to_be_unsigned config) headers headers' ->
  same_body (c_body (s_canonicalization sig)) (concat chunks) (concat chunks') ->
  vr_signature r = Some sig /\ exists ext, Forall2 same_tag (s_ext_tags sig) ext
    /\ r' = mkVResult (vr_status r) i' (Some (with_ext_tags ext sig)) (vr_key_record r).
Proof. exact folding_results. Qed.
Print Assumptions C102_results.

(** the field as it was sent, and as it may arrive *)
Definition sent_text : str := snd (signature_field fresh_output).
Definition refolded_text : str :=
  lit "v=1;" ++ [13; 10; 32; 32] ++ lit "d=Example.com;" ++ [9] ++ lit "s=a-very.long-selector.name; a=rsa-sha256; c=relaxed; t=1000; x=433000;"
  ++ [32; 13; 10; 9] ++ lit "h=Subject:To:From; bh=TkzB0g==; b=BybQFluqqqqqqq qqqqqqqqqqqqqqqqqqqqqqqqqqqqqqqqqqqqqqqg==".
Definition refolded_headers : list HeaderField := (lit "dkim-signature", refolded_text) :: sample_headers.
Definition refolded_results : list VerificationResult :=
  match verify_message ascii_env (sample_world 20 good_records) refolded_headers default_config output_chunks with Val (Some rs) => rs | _ => [] end.

Lemma fws_checked : forall f, match skip_fws f with [] => negb (is_nil f) | _ => false end = true -> fws f.
Proof.
  intros f H. destruct (skip_fws_spec f) as (g & [->|G] & E); destruct (skip_fws f); try discriminate H; rewrite app_nil_r in *; cbn in *; subst; [discriminate H|exact G].
Qed.

Ltac refold := repeat first [apply rf_nil | apply rf_char; [reflexivity|]
  | match goal with
    | |- refolded (13 :: 10 :: 9 :: ?s) (32 :: ?s') => apply (rf_fws [13; 10; 9] [32] s s')
    | |- refolded (32 :: ?s) (13 :: 10 :: 32 :: 32 :: ?s') => apply (rf_fws [32] [13; 10; 32; 32] s s')
    | |- refolded (32 :: ?s) (32 :: 13 :: 10 :: 9 :: ?s') => apply (rf_fws [32] [32; 13; 10; 9] s s')
    | |- refolded (32 :: ?s) (9 :: ?s') => apply (rf_fws [32] [9] s s')
    | |- refolded (32 :: ?s) (32 :: ?s') => apply (rf_fws [32] [32] s s')
    end; [apply fws_checked; reflexivity|apply fws_checked; reflexivity|reflexivity|]].

Lemma sent_folding : same_folding sent_text refolded_text.
Proof.
  exists [32], [], (tl sent_text), refolded_text. split; [right; apply fws_checked; reflexivity|]. split; [left; reflexivity|].
  split; [vm_compute; reflexivity|]. split; [|split; [vm_compute; reflexivity|reflexivity]]. vm_compute. refold.
Qed.

Example C102_example :
  idna_keeps (env_idna ascii_env) /\ same_folding sent_text refolded_text /\ sent_text <> refolded_text
  /\ evaluation ascii_env (sample_world 20 good_records) sent_headers default_config output_chunks
       (fun p => sample_zone good_records (key_name p)) sent_results
  /\ evaluation ascii_env (sample_world 20 good_records) refolded_headers default_config output_chunks
       (fun p => sample_zone good_records (key_name p)) refolded_results
  /\ (exists sig, map vr_signature sent_results = [Some sig] /\ s_canonicalization sig = mkCanon Relaxed Simple
       /\ signature_read ascii_env sent_text sent_text (Ok sig)
       /\ same_fields Relaxed (s_signed_headers sig ++ [lit "From"]) sent_headers refolded_headers)
  /\ map vr_status sent_results = [Success] /\ refolded_results = sent_results.
Proof.
  split; [exact ascii_keeps|]. split; [exact sent_folding|]. split; [vm_compute; discriminate|].
  split; [apply steady_evaluation; [apply sample_world_ok|apply headers_checked; vm_compute; reflexivity|apply sample_steady|vm_compute; reflexivity]|].
  split; [apply steady_evaluation; [apply sample_world_ok|apply headers_checked; vm_compute; reflexivity|apply sample_steady|vm_compute; reflexivity]|].
  split; [|split; vm_compute; reflexivity].
  eexists. split; [vm_compute; reflexivity|]. split; [reflexivity|]. split.
  - apply sgr_text; [apply Forall_forall; intros c C; unfold is_scalar; assert (c < 128); [|lia]|vm_compute; reflexivity|vm_compute; reflexivity].
    revert c C. apply Forall_forall. vm_compute. repeat (constructor; [reflexivity|]). constructor.
  - cbn [s_signed_headers app]. intros n [<-|[<-|[<-|[<-|[]]]]]; vm_compute; repeat constructor.
Qed.

(** a tag that is not interpreted keeps its whitespace *)
Example C102_ext_example : exists sig,
  signature_read ascii_env (sent_text ++ lit "; n=a b") (sent_text ++ lit "; n=a b") (Ok sig)
  /\ signature_read ascii_env (sent_text ++ lit ";" ++ [9] ++ lit "n=a" ++ [9; 32] ++ lit "b") (sent_text ++ lit ";" ++ [9] ++ lit "n=a" ++ [9; 32] ++ lit "b")
       (Ok (with_ext_tags [(lit "n", lit "a" ++ [9; 32] ++ lit "b")] sig))
  /\ s_ext_tags sig = [(lit "n", lit "a b")].
Proof.
  assert (forall s, forallb (fun c => c <? 128) s = true -> Forall is_scalar s /\ s = as_bytes s) as A.
  { intros s H. rewrite forallb_forall in H. assert (Forall (fun c => c < 128) s) as X by (apply Forall_forall; intros c C; specialize (H c C); lia).
    split; [|symmetry; apply as_bytes_ascii; exact X]. revert X. apply Forall_impl. intros c C. unfold is_scalar. lia. }
  eexists. split; [|split].
  - apply sgr_text; [apply A; vm_compute; reflexivity|apply A; vm_compute; reflexivity|vm_compute; reflexivity].
  - apply sgr_text; [apply A; vm_compute; reflexivity|apply A; vm_compute; reflexivity|vm_compute; reflexivity].
  - reflexivity.
Qed.

(** Whitespace added at the end is not always harmless, though relaxed
    canonicalization disregards it: none may follow a final semicolon. *)
Theorem C102_trailing_refuted : exists E s name, idna_keeps (env_idna E) /\ fws [32]
  /\ canonical_field Relaxed (name, as_bytes s) = canonical_field Relaxed (name, as_bytes (s ++ [32]))
  /\ (exists sig, signature_read E (as_bytes s) s (Ok sig) /\ c_header (s_canonicalization sig) = Relaxed)
  /\ exists e, signature_read E (as_bytes (s ++ [32])) (s ++ [32]) (Err e) /\ se_kind e = ETagListFormat.
Proof.
  exists ascii_env, (sent_text ++ lit ";"), (lit "DKIM-Signature"). split; [exact ascii_keeps|]. split; [apply fws_checked; reflexivity|].
  assert (forall s, forallb (fun c => c <? 128) s = true -> Forall is_scalar s) as A.
  { intros s H. rewrite forallb_forall in H. apply Forall_forall. intros c C. specialize (H c C). unfold is_scalar. lia. }
  split; [vm_compute; reflexivity|]. split.
  - eexists. split; [apply sgr_text; [apply A; vm_compute; reflexivity|reflexivity|vm_compute; reflexivity]|reflexivity].
  - eexists. split; [apply sgr_text; [apply A; vm_compute; reflexivity|reflexivity|vm_compute; reflexivity]|reflexivity].
Qed.
Print Assumptions C102_trailing_refuted.
