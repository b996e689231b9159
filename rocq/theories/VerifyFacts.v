(** Proofs about verification: what the results say. *)

From Coq Require Import String List Sorted Permutation.
From Verif Require Import Base Utf8 Canon BodyHash Header TagList Domain Signature KeyRecord Crypto Verify
  SpecText SpecCanon SpecHash SpecHeader SpecTag SpecDomain SpecSig SpecRecord SpecSign SpecVerify
  Lib Utf8Proofs HeaderProofs HeaderCanonProofs BodyHashProofs DomainProofs TagListProofs SigProofs RecordProofs SignProofs
  VerifyProofs VerifyKeys VerifyRun.
Import ListNotations.
Open Scope N_scope.

Section WithEnv.
Variable E : Env.
Notation C := (env_crypto E).
Notation idna := (env_idna E).

(** ** Checks passed *)

Lemma signature_good_iff : forall headers config now sig,
  first_of (signature_checks E headers config now sig) None <-> signature_good E headers config now sig.
Proof.
  intros headers config now sig. rewrite first_of_none_iff. unfold signature_checks, signature_good, required_missing, unsigned_occurrence, length_unusable, expired, in_future, forbidden_sha1. cbv zeta.
  rewrite !Forall_cons_iff. cbn [fst]. set (t0 := seconds config now). split.
  - intros (H1 & H2 & H3 & H4 & H5 & H6 & _). repeat split.
    + intros n Hn. destruct (existsb (fun m => same_nameb m n) (s_signed_headers sig)) eqn:X.
      * apply existsb_exists in X as (m & A & B). apply same_nameb_iff in B. eauto.
      * exfalso. apply H1. exists n. split; [exact Hn|]. intros m Hm S. rewrite <- not_true_iff_false, existsb_exists in X. apply X.
        exists m. split; [exact Hm|]. apply same_nameb_iff. exact S.
    + intros n Hn. destruct (Nat.le_gt_cases (occurrences n (map fst headers)) (occurrences n (s_signed_headers sig))) as [X|X]; [exact X|].
      exfalso. apply H2. eauto.
    + intros l Hl. destruct (N.le_gt_cases l (env_usize_max E)); [assumption|]. exfalso. apply H3. eauto.
    + destruct (N.le_gt_cases (N.min (x + cf_time_tolerance config) (2^64 - 1)) t0); [exfalso; apply H4; eauto|lia].
    + destruct (N.le_gt_cases (N.min (x + cf_time_tolerance config) (2^64 - 1)) t0); [exfalso; apply H4; eauto|lia].
    + intros A t Ht. destruct (N.le_gt_cases t (t0 + cf_time_tolerance config)); [assumption|]. exfalso. apply H5. eauto.
    + intros A. destruct (alg_hash (s_algorithm sig)) eqn:X; [reflexivity|]. exfalso. apply H6. auto.
  - intros (H1 & H2 & H3 & H4 & H5 & H6). repeat split; try constructor.
    + intros (n & A & B). destruct (H1 n A) as (m & M1 & M2). exact (B m M1 M2).
    + intros (n & A & B). specialize (H2 n A). lia.
    + intros (l & A & B). specialize (H3 l A). lia.
    + intros (A & x & B & D). destruct (H4 A x B). lia.
    + intros (A & t & B & D). specialize (H5 A t B). lia.
    + intros (A & B). rewrite (H6 A) in B. discriminate.
Qed.

Lemma list_option_dec : forall a b : option str, {a = b} + {a <> b}.
Proof. decide equality. apply list_eq_dec. apply N.eq_dec. Qed.

Lemma verifies_dec : forall k a d s, {verifies E k a d s} + {~ verifies E k a d s}.
Proof. intros [k|k] a d s; cbn; apply Bool.bool_dec. Qed.

Lemma accepts_iff : forall headers config sig name value txt r,
  record_outcome E headers config sig name value txt (Some r) None <-> record_accepts E headers config sig name value txt r.
Proof.
  intros headers config sig name value txt r. split.
  - intros H. inversion H as [| |s r' e R1 R2 F]; subst. rewrite first_of_none_iff in F. unfold key_checks in F. cbv zeta in F.
    rewrite !Forall_cons_iff in F. cbn [fst] in F. destruct F as (F1 & F2 & F3 & F4 & F5 & F6 & F7 & F8 & _).
    assert (k_key_type r = key_type_for (s_algorithm sig)) as K1.
    { destruct (key_type_eqb (k_key_type r) (key_type_for (s_algorithm sig))) eqn:X; [apply key_type_eqb_eq; exact X|].
      exfalso. apply F1. intros Y. apply key_type_eqb_eq in Y. congruence. }
    destruct (vk_from_key_data C (key_type_for (s_algorithm sig)) (k_key_data r)) as [key|] eqn:K.
    2:{ exfalso. apply F5. intros k X. apply key_in_iff in X. congruence. }
    apply key_in_iff in K. exists s, key. split; [exact R1|]. split; [exact R2|]. split; [exact K1|]. split; [exact F2|]. split.
    { destruct (existsb (hash_alg_eqb (alg_hash (s_algorithm sig))) (k_hash_algorithms r)) eqn:X.
      - apply existsb_exists in X as (h & X & Y). apply hash_alg_eqb_eq in Y. subst. exact X.
      - exfalso. apply F3. intros Y. rewrite <- not_true_iff_false, existsb_exists in X. apply X. eexists. split; [exact Y|]. apply hash_alg_eqb_eq. reflexivity. }
    split.
    { intros A i Hi. destruct (list_option_dec (idna_to_ascii idna (id_domain i)) (idna_to_ascii idna (s_domain sig))) as [X|X]; [exact X|].
      exfalso. apply F4. split; [exact A|]. eauto. }
    rewrite K1. split; [exact K|]. split.
    { intros pk ->. destruct (N.le_gt_cases (N.max (if env_pre E then 512 else 1024) (cf_min_key_bits config)) (rsa_size C pk * 8)) as [X|X]; [exact X|].
      exfalso. apply N.max_lt_iff in X as [X|X]; [apply F6|apply F7]; eexists; (split; [exact K|]); eexists; (split; [reflexivity|exact X]). }
    destruct (verifies_dec key (alg_hash (s_algorithm sig)) (signed_digest E headers sig name value) (s_signature_data sig)) as [X|X]; [exact X|].
    exfalso. apply F8. eauto.
  - intros (s & key & R1 & R2 & K1 & F2 & F3 & F4 & K & F6 & F8). apply ro_record with s; [exact R1|exact R2|].
    rewrite first_of_none_iff. unfold key_checks. cbv zeta. rewrite K1 in K. repeat constructor; cbn [fst].
    + intros X. exact (X K1).
    + exact F2.
    + intros X. exact (X F3).
    + intros (A & i & Hi & X). apply X. auto.
    + intros X. exact (X _ K).
    + intros (k & A & pk & -> & X). rewrite (key_in_det _ _ _ _ _ K A) in *. specialize (F6 pk eq_refl). destruct (env_pre E); lia.
    + intros (k & A & pk & -> & X). rewrite (key_in_det _ _ _ _ _ K A) in *. specialize (F6 pk eq_refl). lia.
    + intros (k & A & X). rewrite (key_in_det _ _ _ _ _ K A) in *. exact (X F8).
Qed.

Lemma body_success : forall config sig body, body_status E config sig body = Success <-> body_matches E config sig body.
Proof.
  intros config sig body. unfold body_status, body_matches, expected_result. cbv zeta.
  set (cb := canonical_body _ body). destruct (s_body_length sig) as [l|].
  - destruct (N.of_nat (length cb) <? l) eqn:A.
    + split; [discriminate|]. intros (c & r & X & Y & _). apply (f_equal (@length _)) in X. rewrite app_length in X. lia.
    + destruct (cf_forbid_unsigned_content config && (l <? N.of_nat (length cb))) eqn:B.
      * split; [discriminate|]. intros (c & r & X & Y & _ & Z). apply andb_true_iff in B as [B1 B2]. rewrite (Z B1), app_nil_r in X. subst c. lia.
      * assert (cb = firstn (N.to_nat l) cb ++ skipn (N.to_nat l) cb) as S by (symmetry; apply firstn_skipn).
        assert (N.of_nat (length (firstn (N.to_nat l) cb)) = l) as L by (rewrite firstn_length; lia).
        destruct (leqb _ (s_body_hash sig)) eqn:D.
        -- split; [intros _|reflexivity]. apply leqb_eq in D. eexists _, _. split; [exact S|]. split; [exact L|]. split; [exact D|].
           intros F. rewrite F in B. cbn [andb] in B. apply length_zero_iff_nil. rewrite skipn_length. lia.
        -- split; [discriminate|]. intros (c & r & X & Y & Z & _). exfalso. rewrite <- not_true_iff_false, leqb_eq in D. apply D. rewrite <- Z. f_equal.
           rewrite X. replace (N.to_nat l) with (length c + 0)%nat by lia. rewrite firstn_app_2. cbn. apply app_nil_r.
  - destruct (leqb _ (s_body_hash sig)) eqn:D.
    + split; [intros _|reflexivity]. apply leqb_eq in D. exact D.
    + split; [discriminate|]. intros X. rewrite <- not_true_iff_false, leqb_eq in D. contradiction.
Qed.

(** ** Outcomes are unique, and exist *)

Lemma record_outcome_det : forall headers config sig name value txt r e r' e',
  record_outcome E headers config sig name value txt r e -> record_outcome E headers config sig name value txt r' e' -> r = r' /\ e = e'.
Proof.
  intros headers config sig name value txt r e r' e' H K.
  destruct H as [H|s x H1 H2|s x y H1 H2 H3]; destruct K as [K|s' x' K1 K2|s' x' y' K1 K2 K3];
    try (match goal with A : record_text txt _, B : record_text txt _ |- _ => pose proof (record_text_det _ _ _ A B) as X end; try discriminate X; try injection X as <-).
  - auto.
  - split; congruence.
  - congruence.
  - congruence.
  - assert (x = x') as <- by congruence. split; [reflexivity|]. eapply first_of_det; eassumption.
Qed.

Lemma record_outcome_exists : forall headers config s sig name value txt, header_fields headers ->
  sig_from_str (env_pre E) idna s = Val (Ok sig) -> field_name name ->
  exists r e, record_outcome E headers config sig name value txt r e.
Proof.
  intros headers config s sig name value txt Hh Hs Hn. destruct (record_text_exists txt) as ([t|] & R).
  - destruct (decides_val _ _ _ _ _ (record_from_str_spec (env_pre E) t)) as ([k|e] & V).
    + destruct (record_checks E headers Hh config s sig name value k Hs Hn) as (v & _ & F). eexists _, _. eapply ro_record; eassumption.
    + eexists _, _. eapply ro_format; eassumption.
  - eexists _, _. apply ro_not_text. exact R.
Qed.

Lemma success_has_record : forall headers config sig name value txt r, record_outcome E headers config sig name value txt r None -> exists k, r = Some k.
Proof. intros headers config sig name value txt r H. inversion H; eauto. Qed.

Lemma records_outcome_cases : forall headers config sig name value txts r e, records_outcome E headers config sig name value txts r e ->
  (e = None /\ exists before txt after, txts = before ++ txt :: after
     /\ Forall (fun t => exists r' e', record_outcome E headers config sig name value t r' (Some e')) before
     /\ record_outcome E headers config sig name value txt r None)
  \/ (exists e', e = Some e' /\ Forall (fun t => exists r' e', record_outcome E headers config sig name value t r' (Some e')) txts
     /\ exists before txt, txts = before ++ [txt] /\ record_outcome E headers config sig name value txt r e).
Proof.
  intros headers config sig name value txts r e H. induction H as [txt more r H|txt r e H|txt more r e r' e' N H K IH].
  - left. split; [reflexivity|]. exists [], txt, more. split; [reflexivity|]. split; [constructor|exact H].
  - right. exists e. split; [reflexivity|]. split; [repeat constructor; eauto|]. exists [], txt. auto.
  - destruct IH as [(-> & before & t & after & -> & F & O)|(e2 & -> & F & before & t & -> & O)].
    + left. split; [reflexivity|]. exists (txt :: before), t, after. split; [reflexivity|]. split; [constructor; eauto|exact O].
    + right. exists e2. split; [reflexivity|]. split; [constructor; eauto|]. exists (txt :: before), t. auto.
Qed.

Lemma records_outcome_det : forall headers config sig name value txts r e r' e',
  records_outcome E headers config sig name value txts r e -> records_outcome E headers config sig name value txts r' e' -> r = r' /\ e = e'.
Proof.
  intros headers config sig name value txts r e r' e' H. revert r' e'.
  induction H as [txt more r H|txt r e H|txt more r e r1 e1 N H K IH]; intros r' e' X; inversion X; subst; try congruence;
    try match goal with A : record_outcome _ _ _ _ _ _ txt _ _, B : record_outcome _ _ _ _ _ _ txt _ _ |- _ =>
      lazymatch A with B => fail | _ => destruct (record_outcome_det _ _ _ _ _ _ _ _ _ _ A B) as [Y1 Y2]; try discriminate Y2; auto end end.
Qed.

Lemma records_outcome_exists : forall headers config s sig name value txts, header_fields headers ->
  sig_from_str (env_pre E) idna s = Val (Ok sig) -> field_name name -> txts <> [] ->
  exists r e, records_outcome E headers config sig name value txts r e.
Proof.
  intros headers config s sig name value txts Hh Hs Hn. induction txts as [|t ts IH]; intros N; [congruence|].
  destruct (record_outcome_exists headers config s sig name value t Hh Hs Hn) as (r & [e|] & O).
  - destruct (list_eq_dec_nil _ ts) as [->|N'].
    + eexists _, _. apply rs_last. exact O.
    + destruct (IH N') as (r' & e' & O'). eexists _, _. eapply rs_more; eassumption.
  - destruct (success_has_record _ _ _ _ _ _ _ O) as (k & ->). eexists _, _. apply rs_success. exact O.
Qed.

Lemma lookup_error_det : forall k e e', lookup_error k e -> lookup_error k e' -> e = e'.
Proof. intros k e e' H K. destruct H; inversion K; subst; congruence. Qed.

Lemma verdict_det : forall answer headers config now body i name value r r',
  verdict E answer headers config now body i name value r -> verdict E answer headers config now body i name value r' -> r = r'.
Proof.
  intros answer headers config now body i name value r r' H K.
  assert (forall s sig p s' sig' p', in_progress E headers config now value s sig -> lookup_pair E sig p ->
    in_progress E headers config now value s' sig' -> lookup_pair E sig' p' -> s = s' /\ sig = sig' /\ p = p') as X.
  { intros s sig p s' sig' p' A B A' B'. destruct (in_progress_det _ _ _ _ _ _ _ _ _ A A') as [<- <-]. split; [reflexivity|]. split; [reflexivity|].
    eapply lookup_pair_det; eassumption. }
  assert (forall s sig s' e, in_progress E headers config now value s sig -> signature_read E value s' (Err e) -> False) as Y1.
  { intros s sig s' e [A _] B. destruct (signature_read_det _ _ _ _ _ _ A B) as [_ Z]. discriminate Z. }
  assert (forall s sig s' sig' e, in_progress E headers config now value s sig -> signature_read E value s' (Ok sig') ->
    first_of (signature_checks E headers config now sig') (Some e) -> False) as Y2.
  { intros s sig s' sig' e [A F] B G. destruct (signature_read_det _ _ _ _ _ _ A B) as [_ Z]. injection Z as <-.
    pose proof (first_of_det _ _ _ _ F G). discriminate. }
  destruct H as [s e H|s sig e H1 H2|s sig p k e H1 H2 H3 H4|s sig p H1 H2 H3|s sig p txts r e H1 H2 H3 H4|s sig p txts r H1 H2 H3 H4];
  destruct K as [s' e' K|s' sig' e' K1 K2|s' sig' p' k' e' K1 K2 K3 K4|s' sig' p' K1 K2 K3|s' sig' p' txts' r' e' K1 K2 K3 K4|s' sig' p' txts' r' K1 K2 K3 K4];
  try (exfalso; eapply Y1; eassumption); try (exfalso; eapply Y2; eassumption);
  try (destruct (X _ _ _ _ _ _ H1 H2 K1 K2) as (<- & <- & <-));
  try (match goal with A : answer ?p = _, B : answer ?p = _ |- _ => rewrite A in B; try discriminate B; injection B as B; try subst end).
  - destruct (signature_read_det _ _ _ _ _ _ H K) as [_ Z]. injection Z as <-. reflexivity.
  - destruct (signature_read_det _ _ _ _ _ _ H K1) as [_ Z]. discriminate Z.
  - destruct (signature_read_det _ _ _ _ _ _ H1 K) as [_ Z]. discriminate Z.
  - destruct (signature_read_det _ _ _ _ _ _ H1 K1) as [_ Z]. injection Z as <-. pose proof (first_of_det _ _ _ _ H2 K2) as Z. injection Z as <-. reflexivity.
  - rewrite (lookup_error_det _ _ _ H4 K4). reflexivity.
  - reflexivity.
  - inversion K4.
  - inversion K4.
  - inversion H4.
  - destruct (records_outcome_det _ _ _ _ _ _ _ _ _ _ H4 K4) as [<- Z]. injection Z as <-. reflexivity.
  - destruct (records_outcome_det _ _ _ _ _ _ _ _ _ _ H4 K4) as [_ Z]. discriminate Z.
  - inversion H4.
  - destruct (records_outcome_det _ _ _ _ _ _ _ _ _ _ H4 K4) as [_ Z]. discriminate Z.
  - destruct (records_outcome_det _ _ _ _ _ _ _ _ _ _ H4 K4) as [<- _]. reflexivity.
Qed.

(** ** Success *)

Definition confirmed (answer : str * str -> Answer) (headers : list HeaderField) (config : Config) (now : N) (body : list byte)
    (name : str) (value : list byte) (sig : DkimSig) : Prop :=
  exists s p txts txt k,
    signature_read E value s (Ok sig) /\ signature_good E headers config now sig /\ lookup_pair E sig p
    /\ answer p = Ok txts /\ In txt (consulted txts) /\ record_accepts E headers config sig name s txt k
    /\ body_matches E config sig body.

Lemma body_not_other : forall config sig body e, body_status E config sig body = Failure e ->
  e = BodyHashMismatch \/ e = VInsufficientContent \/ e = Policy UnsignedContent.
Proof.
  intros config sig body e. unfold body_status. destruct (expected_result _ _ _ _) as [[h n]|[]]; [destruct (leqb _ _); [discriminate|]| |]; intros [= <-]; auto.
Qed.

Lemma verdict_success : forall answer headers config now body i name value r, header_fields headers -> field_name name ->
  verdict E answer headers config now body i name value r ->
  (vr_status r = Success <-> exists sig, confirmed answer headers config now body name value sig).
Proof.
  intros answer headers config now body i name value r Hh Hn V. split.
  - intros S. destruct V; cbn in S; try discriminate S. destruct H as [R F].
    destruct (records_outcome_cases _ _ _ _ _ _ _ _ H2) as [(_ & before & txt & after & Et & _ & O)|(e' & X & _)]; [|discriminate X].
    destruct (success_has_record _ _ _ _ _ _ _ O) as (k & ->). exists sig, s, p, txts, txt, k.
    split; [exact R|]. split; [apply signature_good_iff; exact F|]. split; [assumption|]. split; [assumption|].
    split; [rewrite Et; apply in_elt|]. split; [apply accepts_iff; exact O|]. apply body_success. exact S.
  - intros (sig & s & p & txts & txt & k & R & G & L & A & I & Acc & B).
    apply signature_good_iff in G. assert (in_progress E headers config now value s sig) as P by (split; assumption).
    assert (consulted txts <> []) as N by (intros Z; rewrite Z in I; destruct I).
    destruct (records_outcome_exists headers config s sig name s (consulted txts) Hh (in_progress_parse _ _ _ _ _ _ _ P) Hn N) as (rk & e & O).
    destruct (records_outcome_cases _ _ _ _ _ _ _ _ O) as [(-> & _)|(e' & -> & F & _)].
    + rewrite (verdict_det _ _ _ _ _ _ _ _ _ _ V (vd_body E answer headers config now body i name value s sig p txts rk P L A O)). cbn. apply body_success. exact B.
    + exfalso. rewrite Forall_forall in F. destruct (F _ I) as (r' & e2 & X). apply accepts_iff in Acc.
      destruct (record_outcome_det _ _ _ _ _ _ _ _ _ _ X Acc) as [_ Y]. discriminate Y.
Qed.

(** ** From evaluations to verdicts *)

Lemma lookup_log_inj : forall r qs qs' n t, lookup_log r n t qs = lookup_log r n t qs' -> qs = qs'.
Proof.
  intros r. induction qs as [|q qs IH]; intros [|q' qs'] n t H; try discriminate H; [reflexivity|]. cbn [lookup_log] in H. injection H as <- _ H. f_equal. eapply IH. exact H.
Qed.

Lemma evaluation_verdicts : forall w headers config chunks answer rs, evaluation E w headers config chunks answer rs ->
  Forall2 (fun f r => verdict E answer headers config (w_clock w (fst f)) (concat chunks) (fst f) (fst (snd f)) (snd (snd f)) r)
    (examined config headers) rs.
Proof.
  intros w headers config chunks answer rs (W & H & M & v & qs & t & V & A).
  destruct (verify_spec E w headers config W H) as [[_ X]|(_ & v' & qs' & X & _ & _ & R)]; [congruence|].
  rewrite V in X. assert (v = v' /\ qs = qs') as [<- <-]. { injection X as -> X _. split; [reflexivity|]. eapply lookup_log_inj. exact X. }
  destruct (R chunks) as (v2 & rs' & R1 & R2 & R3). unfold verify_message in M. rewrite V in M. cbn [bind] in M. rewrite R1 in M. cbn [bind] in M. rewrite R2 in M. cbn [bind] in M.
  injection M as <-. apply R3. exact A.
Qed.

Lemma evaluation_verdict : forall w headers config chunks answer rs i name value r, evaluation E w headers config chunks answer rs ->
  result_for config headers rs i name value r ->
  verdict E answer headers config (w_clock w i) (concat chunks) i name value r /\ field_name name /\ header_fields headers
  /\ nth_error headers i = Some (name, value).
Proof.
  intros w headers config chunks answer rs i name value r H (k & K1 & K2). pose proof (evaluation_verdicts _ _ _ _ _ _ H) as F.
  destruct H as (_ & Hh & _).
  assert (nth_error headers i = Some (name, value)) as Hi by (apply (examined_in config); eapply nth_error_In; exact K1).
  split; [|split; [apply (name_field headers Hh i (name, value) Hi)|split; [exact Hh|exact Hi]]].
  clear - F K1 K2. revert k K1 K2. induction F as [|f r0 fs rs Hf F IH]; intros [|k] K1 K2; try discriminate.
  - cbn in K1, K2. injection K1 as ->. injection K2 as ->. exact Hf.
  - eapply IH; eassumption.
Qed.

Lemma evaluation_exists : forall w headers config chunks, world_ok w -> header_fields headers -> examined config headers <> [] ->
  exists answer rs, evaluation E w headers config chunks answer rs.
Proof.
  intros w headers config chunks W H N. destruct (verify_spec E w headers config W H) as [[X _]|(_ & v & qs & V & ND & _ & R)]; [contradiction|].
  destruct (answer_exists (w_resolver w) qs ND) as (answer & A). destruct (R chunks) as (v2 & rs & R1 & R2 & R3). exists answer, rs.
  split; [exact W|]. split; [exact H|]. split.
  - unfold verify_message. rewrite V. cbn [bind]. rewrite R1. cbn [bind]. rewrite R2. reflexivity.
  - exists v, qs. eexists. split; [exact V|exact A].
Qed.

Lemma verify_message_cases : forall w headers config chunks, world_ok w -> header_fields headers ->
  (examined config headers = [] /\ verify_message E w headers config chunks = Val None)
  \/ (examined config headers <> [] /\ exists rs, verify_message E w headers config chunks = Val (Some rs)
        /\ map vr_index rs = map fst (examined config headers)).
Proof.
  intros w headers config chunks W H. destruct (list_eq_dec_nil _ (examined config headers)) as [X|X].
  - left. split; [exact X|]. destruct (verify_spec E w headers config W H) as [[_ V]|[N _]]; [|contradiction]. unfold verify_message. rewrite V. reflexivity.
  - right. split; [exact X|]. destruct (evaluation_exists w headers config chunks W H X) as (answer & rs & Ev). exists rs. split; [apply Ev|].
    pose proof (evaluation_verdicts _ _ _ _ _ _ Ev) as F. clear - F. induction F as [|f r fs rs V F IH]; [reflexivity|]. cbn [map]. rewrite IH. f_equal. destruct V; reflexivity.
Qed.

(** the answers that matter are those to lookups made *)
Lemma verdict_answer : forall answer answer' headers config now body i name value r,
  (forall s sig p, in_progress E headers config now value s sig -> lookup_pair E sig p -> answer p = answer' p) ->
  verdict E answer headers config now body i name value r -> verdict E answer' headers config now body i name value r.
Proof.
  intros answer answer' headers config now body i name value r H V.
  destruct V as [s e V|s sig e V1 V2|s sig p k e V1 V2 V3 V4|s sig p V1 V2 V3|s sig p txts r e V1 V2 V3 V4|s sig p txts r V1 V2 V3 V4].
  - eapply vd_format; eassumption.
  - eapply vd_check; eassumption.
  - rewrite (H _ _ _ V1 V2) in V3. eapply vd_lookup; eassumption.
  - rewrite (H _ _ _ V1 V2) in V3. eapply vd_no_key; eassumption.
  - rewrite (H _ _ _ V1 V2) in V3. eapply vd_key; eassumption.
  - rewrite (H _ _ _ V1 V2) in V3. eapply vd_body; eassumption.
Qed.

(** ** Lookup order *)

Lemma steady_evaluation : forall w headers config chunks zone rs, world_ok w -> header_fields headers -> steady (w_resolver w) zone ->
  verify_message E w headers config chunks = Val (Some rs) ->
  evaluation E w headers config chunks (fun p => zone (key_name p)) rs.
Proof.
  intros w headers config chunks zone rs W H S M. split; [exact W|]. split; [exact H|]. split; [exact M|].
  destruct (verify_spec E w headers config W H) as [[_ V]|(_ & v & qs & V & _)].
  - unfold verify_message in M. rewrite V in M. discriminate M.
  - exists v, qs. eexists. split; [exact V|]. intros n p _. symmetry. apply S.
Qed.

Lemma verdicts_equal : forall answer headers config clock body fs rs rs',
  let P := fun (f : nat * HeaderField) r => verdict E answer headers config (clock (fst f)) body (fst f) (fst (snd f)) (snd (snd f)) r in
  Forall2 P fs rs -> Forall2 P fs rs' -> rs = rs'.
Proof.
  intros answer headers config clock body fs rs rs' P F. revert rs'. induction F as [|f r fs rs V F IH]; intros rs' F'; inversion F'; subst; [reflexivity|].
  f_equal; [eapply verdict_det; eassumption|auto].
Qed.

Lemma order_independent : forall w1 w2 headers config chunks1 chunks2 zone, world_ok w1 -> world_ok w2 -> header_fields headers ->
  steady (w_resolver w1) zone -> steady (w_resolver w2) zone -> (forall i, w_clock w1 i = w_clock w2 i) -> concat chunks1 = concat chunks2 ->
  verify_message E w1 headers config chunks1 = verify_message E w2 headers config chunks2.
Proof.
  intros w1 w2 headers config c1 c2 zone W1 W2 H S1 S2 Hc Hb.
  destruct (verify_message_cases w1 headers config c1 W1 H) as [[X V]|(X & rs & V & _)];
  destruct (verify_message_cases w2 headers config c2 W2 H) as [[X' V']|(X' & rs' & V' & _)]; try contradiction; [congruence|].
  rewrite V, V'. do 2 f_equal. pose proof (evaluation_verdicts _ _ _ _ _ _ (steady_evaluation _ _ _ _ _ _ W1 H S1 V)) as F.
  pose proof (evaluation_verdicts _ _ _ _ _ _ (steady_evaluation _ _ _ _ _ _ W2 H S2 V')) as F'. rewrite <- Hb in F'.
  eapply (verdicts_equal _ _ _ (w_clock w1)); [exact F|]. revert F'. apply Forall2_imp. intros f r _ _. rewrite <- Hc. exact (fun x => x).
Qed.

(** ** Checks before the lookup *)

Lemma first_of_cons_some : forall A (P : Prop) a (l : list (Prop * A)) e,
  first_of ((P, a) :: l) (Some e) <-> (P /\ e = a) \/ (~ P /\ first_of l (Some e)).
Proof.
  intros A P a l e. split.
  - intros H. inversion H; subst; auto.
  - intros [[H ->]|[H K]]; [apply fo_here; exact H|apply fo_next; assumption].
Qed.

Lemma first_of_in : forall A (l : list (Prop * A)) e, first_of l (Some e) -> In e (map snd l).
Proof.
  intros A. induction l as [|[P a] l IH]; intros e H; [inversion H|]. apply first_of_cons_some in H as [[_ ->]|[_ H]]; [left; reflexivity|right; auto].
Qed.

Definition early : list VerificationError :=
  [Policy RequiredHeaderNotSigned; Policy UnsignedHeaderOccurrence; VOverflow; Policy SignatureExpired; Policy TimestampInFuture; Policy Sha1HashAlgorithm].

Lemma records_not_early : forall headers config sig name value txts r e, records_outcome E headers config sig name value txts r (Some e) -> ~ In e early.
Proof.
  intros headers config sig name value txts r e H. destruct (records_outcome_cases _ _ _ _ _ _ _ _ H) as [[X _]|(e' & _ & _ & b & t & _ & O)]; [discriminate X|].
  inversion O as [| |s k e2 R1 R2 F]; subst; [intros X; cbn in X; intuition discriminate|intros X; cbn in X; intuition discriminate|].
  apply first_of_in in F. unfold key_checks in F. cbn [map snd] in F. intros X. cbn in F, X. intuition congruence.
Qed.

Lemma early_status : forall answer headers config now body i name value r e, verdict E answer headers config now body i name value r -> In e early ->
  (vr_status r = Failure e <-> exists s sig, signature_read E value s (Ok sig) /\ first_of (signature_checks E headers config now sig) (Some e)).
Proof.
  intros answer headers config now body i name value r e V I. split.
  - intros S. destruct V as [s e' V|s sig e' V1 V2|s sig p k e' V1 V2 V3 V4|s sig p V1 V2 V3|s sig p txts r e' V1 V2 V3 V4|s sig p txts r V1 V2 V3 V4]; cbn in S.
    + injection S as <-. exfalso. cbn in I. intuition discriminate.
    + injection S as ->. eauto.
    + injection S as ->. exfalso. destruct V4; cbn in I; intuition discriminate.
    + injection S as <-. exfalso. cbn in I. intuition discriminate.
    + injection S as ->. exfalso. eapply records_not_early; eassumption.
    + exfalso. apply body_not_other in S as [->|[->| ->]]; cbn in I; intuition discriminate.
  - intros (s & sig & R & F). rewrite (verdict_det _ _ _ _ _ _ _ _ _ _ V (vd_check E answer headers config now body i name value s sig e R F)). reflexivity.
Qed.

(** ** Key records *)

Lemma verdict_similar : forall answer answer' headers config now body i name value r,
  (forall p, match answer p, answer' p with
             | Ok t, Ok t' => consulted t = consulted t'
             | Err k, Err k' => k = k'
             | _, _ => False
             end) ->
  verdict E answer headers config now body i name value r -> verdict E answer' headers config now body i name value r.
Proof.
  intros answer answer' headers config now body i name value r H V.
  destruct V as [s e V|s sig e V1 V2|s sig p k e V1 V2 V3 V4|s sig p V1 V2 V3|s sig p txts r e V1 V2 V3 V4|s sig p txts r V1 V2 V3 V4].
  - eapply vd_format; eassumption.
  - eapply vd_check; eassumption.
  - specialize (H p). rewrite V3 in H. destruct (answer' p) as [t'|k'] eqn:X; [destruct H|]. subst k'. eapply vd_lookup; eassumption.
  - specialize (H p). rewrite V3 in H. destruct (answer' p) as [t'|k'] eqn:X; [|destruct H]. assert (t' = []) as -> by (apply consulted_nil; symmetry; exact H). eapply vd_no_key; eassumption.
  - specialize (H p). rewrite V3 in H. destruct (answer' p) as [t'|k'] eqn:X; [|destruct H]. rewrite H in V4. eapply vd_key; eassumption.
  - specialize (H p). rewrite V3 in H. destruct (answer' p) as [t'|k'] eqn:X; [|destruct H]. rewrite H in V4. eapply vd_body; eassumption.
Qed.

Lemma verdict_records : forall answer headers config now body i name value r s sig p txts, header_fields headers -> field_name name ->
  verdict E answer headers config now body i name value r ->
  in_progress E headers config now value s sig -> lookup_pair E sig p -> answer p = Ok txts -> txts <> [] ->
  vr_signature r = Some sig /\
  ((exists before txt after k, consulted txts = before ++ txt :: after
      /\ Forall (fun t => forall k', ~ record_accepts E headers config sig name s t k') before
      /\ record_accepts E headers config sig name s txt k
      /\ vr_status r = body_status E config sig body /\ vr_key_record r = Some k)
   \/ (exists before txt e, consulted txts = before ++ [txt]
      /\ Forall (fun t => forall k', ~ record_accepts E headers config sig name s t k') (consulted txts)
      /\ record_outcome E headers config sig name s txt (vr_key_record r) (Some e) /\ vr_status r = Failure e)).
Proof.
  intros answer headers config now body i name value r s sig p txts Hh Hn V P L A N.
  assert (forall ts, Forall (fun t => exists r' e', record_outcome E headers config sig name s t r' (Some e')) ts ->
    Forall (fun t => forall k', ~ record_accepts E headers config sig name s t k') ts) as X.
  { intros ts. apply Forall_impl. intros t (r' & e' & O) k' Acc. apply accepts_iff in Acc. destruct (record_outcome_det _ _ _ _ _ _ _ _ _ _ O Acc) as [_ Y]. discriminate Y. }
  destruct (records_outcome_exists headers config s sig name s (consulted txts) Hh (in_progress_parse _ _ _ _ _ _ _ P) Hn) as (rk & e & O); [rewrite consulted_nil; exact N|].
  destruct (records_outcome_cases _ _ _ _ _ _ _ _ O) as [(-> & before & txt & after & Et & F & O')|(e' & -> & F & before & txt & Et & O')].
  - rewrite (verdict_det _ _ _ _ _ _ _ _ _ _ V (vd_body E answer headers config now body i name value s sig p txts rk P L A O)). cbn. split; [reflexivity|].
    left. destruct (success_has_record _ _ _ _ _ _ _ O') as (k & ->). exists before, txt, after, k. split; [exact Et|]. split; [apply X; exact F|].
    split; [apply accepts_iff; exact O'|]. auto.
  - rewrite (verdict_det _ _ _ _ _ _ _ _ _ _ V (vd_key E answer headers config now body i name value s sig p txts rk e' P L A O)). cbn. split; [reflexivity|].
    right. exists before, txt, e'. split; [exact Et|]. split; [apply X; exact F|]. auto.
Qed.

(** a success: the signature and the key record it is due to *)
Lemma verdict_success_record : forall answer headers config now body i name value r,
  verdict E answer headers config now body i name value r -> vr_status r = Success ->
  exists s sig txt k p txts, signature_read E value s (Ok sig) /\ signature_good E headers config now sig
    /\ vr_signature r = Some sig /\ vr_key_record r = Some k /\ lookup_pair E sig p /\ answer p = Ok txts /\ In txt (consulted txts)
    /\ record_accepts E headers config sig name s txt k /\ body_matches E config sig body.
Proof.
  intros answer headers config now body i name value r V S. destruct V; cbn in S; try discriminate S. destruct H as [R F].
  destruct (records_outcome_cases _ _ _ _ _ _ _ _ H2) as [(_ & before & txt & after & Et & _ & O)|(e' & X & _)]; [|discriminate X].
  destruct (success_has_record _ _ _ _ _ _ _ O) as (k & ->). exists s, sig, txt, k, p, txts.
  split; [exact R|]. split; [apply signature_good_iff; exact F|]. cbn. split; [reflexivity|]. split; [reflexivity|]. split; [assumption|]. split; [assumption|].
  split; [rewrite Et; apply in_elt|]. split; [apply accepts_iff; exact O|]. apply body_success. exact S.
Qed.

Lemma signature_read_parse : forall value s r, signature_read E value s (Ok r) -> sig_from_str (env_pre E) idna s = Val (Ok r).
Proof. intros value s r H. inversion H; assumption. Qed.

(** ** Lookups *)

Lemma choose_distinct : forall A B (R : A -> B -> Prop) (qs : list B) (l : list A), NoDup qs ->
  (forall q, In q qs -> exists x, In x l /\ R x q) -> (forall x q q', R x q -> R x q' -> q = q') -> (length qs <= length l)%nat.
Proof.
  intros A B R qs l ND H U. cut (exists xs, Forall2 (fun q x => In x l /\ R x q) qs xs).
  { intros (xs & F). assert (length qs = length xs) as -> by (clear - F; induction F; cbn; congruence). apply NoDup_incl_length.
    - clear H. induction F as [|q x qs xs [I Rx] F IH]; [constructor|]. inversion ND as [|? ? N1 N2]; subst. constructor; [|auto].
      intros X. destruct (Forall2_in_r _ _ _ _ _ _ F X) as (q' & I' & _ & R'). apply N1. rewrite (U _ _ _ Rx R'). exact I'.
    - intros x X. destruct (Forall2_in_r _ _ _ _ _ _ F X) as (q' & _ & I & _). exact I. }
  clear ND U. induction qs as [|q qs IH]; [exists []; constructor|]. destruct (H q) as (x & X); [left; reflexivity|]. destruct IH as (xs & F); [intros; apply H; right; assumption|].
  exists (x :: xs). constructor; assumption.
Qed.

Lemma lookups_spec : forall w headers config v log t, world_ok w -> header_fields headers ->
  verify_header E w headers config = Val (Some (v, log, t)) ->
  exists qs, log = lookup_log (w_resolver w) 0 0 qs /\ t = lookups_end (w_resolver w) 0 0 qs /\ NoDup qs
    /\ (forall p, In p qs <-> pair_needed E headers config (w_clock w) p)
    /\ (length qs <= length (examined config headers) <= cf_max_signatures config)%nat.
Proof.
  intros w headers config v log t W H V. destruct (verify_spec E w headers config W H) as [[_ X]|(_ & v' & qs & X & ND & Q & _)]; [congruence|].
  rewrite V in X. injection X as -> -> ->. exists qs. repeat split; auto; try apply Q.
  - apply (choose_distinct _ _ (fun (f : nat * HeaderField) p => exists s sig, in_progress E headers config (w_clock w (fst f)) (snd (snd f)) s sig /\ lookup_pair E sig p) _ _ ND).
    + intros p Hp. apply Q in Hp as (i & name & value & s & sig & I & P & L). exists (i, (name, value)). eauto.
    + intros f p p' (s & sig & P & L) (s' & sig' & P' & L'). destruct (in_progress_det _ _ _ _ _ _ _ _ _ P P') as [_ <-]. eapply lookup_pair_det; eassumption.
  - unfold examined. rewrite firstn_length. lia.
Qed.

(** ** Skipping the rest of the body *)

Lemma verifier_done : forall w headers config v log t chunks v1 c v2 more,
  verify_header E w headers config = Val (Some (v, log, t)) ->
  verifier_chunks v chunks = Val v1 -> verifier_chunk v1 c = Val (Done, v2) -> verifier_chunks v2 more = Val v2.
Proof.
  intros w headers config v log t chunks v1 c v2 more Hp H1 H2.
  assert (exists b ord, vf_body_hasher v = bhb_build b ord) as (b & ord & Hb).
  { unfold verify_header in Hp. destruct (find_signatures E headers config (w_clock w)) as [[ts|]|]; cbn [bind] in Hp; try discriminate.
    destruct (add_lookups idna [] ts) as [ps|]; cbn [bind] in Hp; [|discriminate]. destruct (spawn_all _ _ _ _) as [set el].
    destruct (process_results E headers config (map snd set) ts) as [ts'|]; cbn [bind] in Hp; [|discriminate].
    destruct (build_tasks E _ ts') as [[vts b]|]; cbn [bind] in Hp; [|discriminate]. injection Hp as <- _ _. cbn. eauto. }
  assert (forall cs s s', verifier_chunks s cs = Val s' -> exists sts, hash_chunks (vf_body_hasher s) cs = Val (sts, vf_body_hasher s')) as X.
  { induction cs as [|x cs IH]; intros u u' H; cbn [verifier_chunks hash_chunks] in *.
    - injection H as <-. eauto.
    - unfold verifier_chunk in H. destruct (hash_chunk (vf_body_hasher u) x) as [[st bh]|]; cbn [bind] in *; [|discriminate].
      apply IH in H as (sts & H). cbn [vf_body_hasher] in H. rewrite H. cbn [bind]. eauto. }
  apply X in H1 as (sts & H1). rewrite Hb in H1.
  unfold verifier_chunk in H2. destruct (hash_chunk (vf_body_hasher v1) c) as [[st bh]|] eqn:Ec; cbn [bind] in H2; [|discriminate].
  injection H2 as -> <-.
  assert (hash_chunks (bhb_build b ord) (chunks ++ [c]) = Val (sts ++ [Done], bh)) as Hc.
  { rewrite hash_chunks_app, H1. cbn [bind hash_chunks]. rewrite Ec. reflexivity. }
  destruct (done_is_final _ _ _ _ _ more Hc) as (sts' & Hm & _). { apply in_or_app. right. left. reflexivity. }
  apply (verifier_chunks_hash more (mkVerifier (vf_tasks v1) bh) sts' bh Hm).
Qed.

(** ** The lookup timeout *)

Definition with_timeout (timeout : N) (config : Config) : Config :=
  mkConfig timeout (cf_max_signatures config) (cf_headers_required_in_signature config)
    (cf_headers_forbidden_to_be_unsigned config) (cf_min_key_bits config) (cf_allow_sha1 config)
    (cf_forbid_unsigned_content config) (cf_allow_expired config) (cf_allow_timestamp_in_future config)
    (cf_time_tolerance config) (cf_fixed_system_time config).

Lemma record_outcome_timeout : forall headers config timeout sig name s txt r e,
  record_outcome E headers config sig name s txt r e -> record_outcome E headers (with_timeout timeout config) sig name s txt r e.
Proof.
  intros headers config timeout sig name s txt r e H. destruct H; [eapply ro_not_text|eapply ro_format|eapply ro_record]; eassumption.
Qed.

Lemma records_outcome_timeout : forall headers config timeout sig name s txts r e,
  records_outcome E headers config sig name s txts r e -> records_outcome E headers (with_timeout timeout config) sig name s txts r e.
Proof.
  intros headers config timeout sig name s txts r e H. induction H.
  - apply rs_success. apply record_outcome_timeout. assumption.
  - apply rs_last. apply record_outcome_timeout. assumption.
  - eapply rs_more; [assumption|apply record_outcome_timeout; eassumption|assumption].
Qed.

Lemma verdict_timeout : forall answer headers config timeout now body i name value r,
  verdict E answer headers config now body i name value r -> verdict E answer headers (with_timeout timeout config) now body i name value r.
Proof.
  intros answer headers config timeout now body i name value r H. destruct H.
  - eapply vd_format; eassumption.
  - eapply vd_check; eassumption.
  - eapply vd_lookup; eassumption.
  - eapply vd_no_key; eassumption.
  - eapply vd_key; try eassumption. apply records_outcome_timeout. assumption.
  - change (body_status E config sig body) with (body_status E (with_timeout timeout config) sig body). eapply vd_body; try eassumption. apply records_outcome_timeout. assumption.
Qed.

End WithEnv.
