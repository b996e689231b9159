(** Property C103: what of a key record matters. *)

From Coq Require Import String List Permutation.
From Verif Require Import Base Utf8 Canon BodyHash Header Domain Parse QP Signature KeyRecord Crypto TagList Format Sign Verify
  SpecText SpecCanon SpecHash SpecHeader SpecTag SpecDomain SpecSig SpecRecord SpecFormat SpecSign SpecOutput SpecVerify SpecEnd SpecDkim SpecCause SpecTransit SpecFold SpecAlike
  HeaderCanonProofs QPProofs RecordProofs VerifyFacts DkimProofs CauseProofs FoldProofs AlikeProofs Lib Sample PropDomain PropSign PropOutput PropVerify PropEnd PropTransit PropFold.
Import ListNotations.
Open Scope N_scope.

(** ** C103 *)

(** When DNS has other records which have the same keys, for the same hash
    algorithms and identities, the result is the same but for the record
    reported. *)
Theorem C103_results : forall E w w' config headers chunks chunks' answer answer' rs rs' i name value r r',
  evaluation E w headers config chunks answer rs -> result_for config headers rs i name value r ->
  evaluation E w' headers config chunks' answer' rs' -> result_for config headers rs' i name value r' ->
  w_clock w i = w_clock w' i -> concat chunks = concat chunks' ->
  (forall s sig p, signature_read E value s (Ok sig) -> lookup_pair E sig p -> alike_answers E (answer p) (answer' p)) ->
  alike_results r r'.
Proof. exact alike_verification. Qed.
Print Assumptions C103_results.

(** Records are so in particular if they only differ in other tags, ... *)
Theorem C103_tags : forall E s s' tags tags' k k', Forall is_scalar s -> Forall is_scalar s' -> tags_of s tags -> tags_of s' tags' ->
  record_of (env_pre E) tags k -> record_of (env_pre E) tags' k' ->
  get "h" tags = get "h" tags' -> get "k" tags = get "k" tags' -> get "p" tags = get "p" tags' -> get "t" tags = get "t" tags' ->
  alike_texts E (Ok (as_bytes s)) (Ok (as_bytes s')).
Proof. exact tags_alike. Qed.
Print Assumptions C103_tags.

(** ... in the other flags, ... *)
Theorem C103_flags : forall E s s' tags tags' k k', Forall is_scalar s -> Forall is_scalar s' -> tags_of s tags -> tags_of s' tags' ->
  record_of (env_pre E) tags k -> record_of (env_pre E) tags' k' ->
  get "h" tags = get "h" tags' -> get "k" tags = get "k" tags' -> get "p" tags = get "p" tags' ->
  (In NoSubdomains (k_flags k) <-> In NoSubdomains (k_flags k')) ->
  alike_texts E (Ok (as_bytes s)) (Ok (as_bytes s')).
Proof. exact flags_alike. Qed.
Print Assumptions C103_flags.

(** ... in the order of tags, provided that v= comes first, ... *)
Theorem C103_order : forall E s s' tags tags' k, Forall is_scalar s -> Forall is_scalar s' -> tags_of s tags -> tags_of s' tags' ->
  record_of (env_pre E) tags k -> Permutation tags tags' ->
  (forall t, In t tags -> tag_name t = lit "v" -> hd_error tags' = Some t) ->
  alike_texts E (Ok (as_bytes s)) (Ok (as_bytes s')).
Proof. exact order_alike. Qed.
Print Assumptions C103_order.

(** ... or in whitespace, unless there are notes. *)
Theorem C103_whitespace : forall E s s' tags k, Forall is_scalar s -> same_folding s s' -> tags_of s tags -> get "n" tags = None ->
  record_of (env_pre E) tags k ->
  alike_texts E (Ok (as_bytes s)) (Ok (as_bytes s'))
  /\ exists ext, record_reads_as E (Ok (as_bytes s')) (with_key_tags ext k) /\ Forall2 same_tag (k_ext_tags k) ext.
Proof.
  intros E s s' tags k Sc H T N R. destruct (folded_record E _ _ _ _ Sc H T N R) as (ext & A & B). split; [|exists ext; auto].
  eapply al_record; [exists s, tags; eauto|exact A|]. repeat split; auto.
Qed.
Print Assumptions C103_whitespace.

Lemma ascii_checked : forall s, forallb (fun c => c <? 128) s = true -> Forall is_scalar s.
Proof. intros s H. rewrite forallb_forall in H. apply Forall_forall. intros c C. specialize (H c C). unfold is_scalar. lia. Qed.

Lemma reads_checked : forall E s k, forallb (fun c => c <? 128) s = true -> record_from_str (env_pre E) s = Val (Ok k) -> record_reads_as E (Ok (as_bytes s)) k.
Proof. intros E s k A R. apply record_reads_iff. exists s. split; [constructor; apply ascii_checked; exact A|exact R]. Qed.

(** records like the sample ones *)
Definition other_records : list str :=
  [lit "junk"; lit "v=DKIM1; h=sha1:sha256:sha256; t=y; s=email:*; n=no one; x=1; p=A" ++ [13; 10; 32] ++ lit "Qc= ; k=RSA;"].

Example C103_example :
  alike_answers ascii_env (sample_zone good_records sample_key_name) (sample_zone other_records sample_key_name)
  /\ evaluation ascii_env (sample_world 20 good_records) sent_headers default_config output_chunks
       (fun p => sample_zone good_records (key_name p)) sent_results
  /\ (exists rs', evaluation ascii_env (sample_world 20 other_records) sent_headers default_config output_chunks
       (fun p => sample_zone other_records (key_name p)) rs'
     /\ map vr_status sent_results = [Success] /\ Forall2 alike_results sent_results rs' /\ rs' <> sent_results).
Proof.
  assert (exists k k', record_from_str (env_pre ascii_env) (nth 1 good_records []) = Val (Ok k)
    /\ record_from_str (env_pre ascii_env) (nth 1 other_records []) = Val (Ok k') /\ alike_keys k k') as (k & k' & K1 & K2 & K3).
  { eexists _, _. split; [vm_compute; reflexivity|]. split; [vm_compute; reflexivity|]. split; [reflexivity|]. split; [reflexivity|]. split.
    - intros h. cbn. tauto.
    - cbn. intuition discriminate. }
  split; [|split].
  - unfold sample_zone. rewrite (proj2 (leqb_eq sample_key_name sample_key_name) eq_refl). apply aa_records. repeat constructor.
    eapply al_record; [apply reads_checked; [reflexivity|exact K1]|apply reads_checked; [reflexivity|exact K2]|exact K3].
  - apply steady_evaluation; [apply sample_world_ok|apply headers_checked; vm_compute; reflexivity|apply sample_steady|vm_compute; reflexivity].
  - eexists. split; [apply steady_evaluation; [apply sample_world_ok|apply headers_checked; vm_compute; reflexivity|apply sample_steady|vm_compute; reflexivity]|].
    split; [vm_compute; reflexivity|]. split; [|vm_compute; discriminate].
    vm_compute. constructor; [|constructor]. repeat split; cbn; intuition congruence.
Qed.

(** a line break within notes makes the record unreadable *)
Theorem C103_notes_refuted : exists E s s' k e, Forall is_scalar s /\ same_folding s s'
  /\ record_reads_as E (Ok (as_bytes s)) k /\ record_unreadable E (Ok (as_bytes s')) e.
Proof.
  exists ascii_env, (lit "n=a b; p=AQc="), (lit "n=a" ++ [13; 10; 32] ++ lit "b; p=AQc="). eexists _, InvalidQuotedPrintable.
  split; [apply ascii_checked; reflexivity|]. split; [|split].
  - exists [], [], (lit "n=a b; p=AQc="), (lit "n=a" ++ [13; 10; 32] ++ lit "b; p=AQc="). split; [left; reflexivity|]. split; [left; reflexivity|]. split; [|split; [|split; reflexivity]]; [reflexivity|].
    vm_compute. repeat first [apply rf_nil|apply rf_char; [reflexivity|]
      | match goal with
        | |- refolded (32 :: ?s) (13 :: 10 :: 32 :: ?s') => apply (rf_fws [32] [13; 10; 32] s s')
        | |- refolded (32 :: ?s) (32 :: ?s') => apply (rf_fws [32] [32] s s')
        end; [apply fws_checked; reflexivity|apply fws_checked; reflexivity|reflexivity|]].
  - apply reads_checked; [reflexivity|vm_compute; reflexivity].
  - apply record_unreadable_iff. right. eexists. split; [constructor; apply ascii_checked; reflexivity|vm_compute; reflexivity].
Qed.
Print Assumptions C103_notes_refuted.

(** texts that differ in other tags, in flags, in order, and in whitespace *)
Example C103_texts_example :
  let s := lit "v=DKIM1; t=y; p=AQc=" in
  let a := lit "p=AQc=; t=y; s=email; n=n" in
  let b := lit "t=z; p=AQc=" in
  let c := lit "v=DKIM1;p=AQc=;t=y" in
  let d := lit "v=DKIM1;" ++ [13; 10; 9] ++ lit "t=y; p=AQc=" in
  exists ts ta tb tc ks ka kb,
    tags_of s ts /\ tags_of a ta /\ tags_of b tb /\ tags_of c tc
    /\ record_of false ts ks /\ record_of false ta ka /\ record_of false tb kb
    /\ get "h" ts = get "h" ta /\ get "k" ts = get "k" ta /\ get "p" ts = get "p" ta /\ get "t" ts = get "t" ta
    /\ get "h" ts = get "h" tb /\ get "k" ts = get "k" tb /\ get "p" ts = get "p" tb /\ (In NoSubdomains (k_flags ks) <-> In NoSubdomains (k_flags kb))
    /\ Permutation ts tc /\ (forall t, In t ts -> tag_name t = lit "v" -> hd_error tc = Some t)
    /\ same_folding s d /\ get "n" ts = None /\ ks <> ka /\ ks <> kb.
Proof.
  cbv zeta.
  assert (forall s ts k, tag_list_from_str s = Ok ts -> record_from_str false s = Val (Ok k) -> record_of false ts k) as R.
  { intros s ts k T K. apply record_ok_iff in K as (ts' & T' & K). congruence. }
  eexists _, _, _, _, _, _, _. do 4 (split; [apply tags_of_iff; vm_compute; reflexivity|]).
  split; [apply (R (lit "v=DKIM1; t=y; p=AQc=")); vm_compute; reflexivity|].
  split; [apply (R (lit "p=AQc=; t=y; s=email; n=n")); vm_compute; reflexivity|].
  split; [apply (R (lit "t=z; p=AQc=")); vm_compute; reflexivity|]. do 7 (split; [reflexivity|]). split; [cbn; intuition discriminate|].
  split; [apply perm_skip; apply perm_swap|]. split; [intros t [<-|[<-|[<-|[]]]] H; try discriminate; reflexivity|].
  split; [|split; [reflexivity|split; discriminate]].
  exists [], [], (lit "v=DKIM1; t=y; p=AQc="), (lit "v=DKIM1;" ++ [13; 10; 9] ++ lit "t=y; p=AQc="). split; [left; reflexivity|]. split; [left; reflexivity|].
  split; [reflexivity|]. split; [|split; reflexivity].
  vm_compute. repeat first [apply rf_nil|apply rf_char; [reflexivity|]
    | match goal with
      | |- refolded (32 :: ?s) (13 :: 10 :: 9 :: ?s') => apply (rf_fws [32] [13; 10; 9] s s')
      | |- refolded (32 :: ?s) (32 :: ?s') => apply (rf_fws [32] [32] s s')
      end; [apply fws_checked; reflexivity|apply fws_checked; reflexivity|reflexivity|]].
Qed.
