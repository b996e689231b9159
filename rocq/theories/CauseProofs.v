(** Proofs that the verifier reports the verdicts of SpecCause.v. *)

From Coq Require Import String List.
From Verif Require Import Base Utf8 Canon BodyHash Header Domain Signature KeyRecord Crypto TagList Verify
  SpecText SpecCanon SpecHash SpecHeader SpecTag SpecDomain SpecSig SpecRecord SpecSign SpecOutput SpecVerify SpecDkim SpecCause
  TagListProofs SigProofs RecordProofs SignProofs VerifyProofs VerifyKeys VerifyRun VerifyFacts DkimProofs Lib.
Import ListNotations.
Open Scope N_scope.

Lemma no_tags : forall s, (forall tags, ~ tags_of s tags) <-> ~ (exists pairs, tag_list_text s pairs /\ NoDup (map fst pairs)).
Proof.
  intros s. rewrite <- not_tag_list. split; intros H tags T; apply (H tags); apply tags_of_iff; exact T.
Qed.

Lemma tags_of_pairs : forall s tags, tags_of s tags <->
  tag_list_text s (map (fun t => (tag_name t, tag_value t)) tags) /\ NoDup (map fst (map (fun t => (tag_name t, tag_value t)) tags)).
Proof. intros s tags. unfold tags_of. rewrite map_map. reflexivity. Qed.

Section WithEnv.
Variable E : Env.
Notation C := (env_crypto E).
Notation idna := (env_idna E).

(** ** Signatures *)

Lemma unreadable_iff : forall value e, unreadable E value e <-> exists s, signature_read E value s (Err e).
Proof.
  intros value e. split.
  - intros [H|s H1 H2 H3|s tags k H1 H2 H3 H4].
    + exists []. apply sgr_not_utf8. exact H.
    + exists s. apply sgr_text; [assumption..|]. apply sig_error_exact. left. split; [apply no_tags; exact H3|reflexivity].
    + exists s. apply sgr_text; [assumption..|]. apply sig_error_exact. right. exists tags, k. apply tags_of_pairs in H3. tauto.
  - intros (s & H). inversion H; subst.
    + apply sig_error_exact in H2 as [[N ->]|(tags & k & T1 & T2 & F & ->)].
      * eapply ur_list; [eassumption|reflexivity|apply no_tags; exact N].
      * eapply ur_tag; [eassumption|reflexivity|apply tags_of_pairs; auto|exact F].
    + apply ur_bytes. assumption.
Qed.

Lemma reads_iff : forall value s sig, signature_read E value s (Ok sig) <-> exists tags, reads_as E value s tags sig.
Proof. intros value s sig. rewrite read_iff. unfold reads_as. split; [intros (A & B & tags & D & F); eauto|intros (tags & A & B & D & F); eauto 6]. Qed.

(** ** Key records *)

Lemma record_reads_iff : forall txt k, record_reads_as E txt k <->
  exists s, record_text txt (Some s) /\ record_from_str (env_pre E) s = Val (Ok k).
Proof.
  intros txt k. split.
  - intros (s & tags & A & -> & T & R). exists s. split; [constructor; exact A|]. apply record_ok_iff. exists tags. rewrite <- tags_of_iff. auto.
  - intros (s & A & R). inversion A; subst. apply record_ok_iff in R as (tags & T & R). exists s, tags. rewrite tags_of_iff. auto.
Qed.

Lemma record_unreadable_iff : forall txt e, record_unreadable E txt e <->
  (record_text txt None /\ e = RecordFormat) \/ (exists s, record_text txt (Some s) /\ record_from_str (env_pre E) s = Val (Err e)).
Proof.
  intros txt e. split.
  - intros [x|bs H|s H1 H2|s tags x H1 H2 H3].
    + left. split; [constructor|reflexivity].
    + left. split; [constructor; exact H|reflexivity].
    + right. exists s. split; [constructor; exact H1|]. apply record_error_exact. left. split; [apply no_tags; exact H2|reflexivity].
    + right. exists s. split; [constructor; exact H1|]. apply record_error_exact. right. exists tags. apply tags_of_pairs in H2. tauto.
  - intros [[A ->]|(s & A & R)].
    + inversion A; subst; constructor. assumption.
    + inversion A; subst. apply record_error_exact in R as [[N ->]|(tags & T1 & T2 & F)].
      * apply ru_list; [assumption|apply no_tags; exact N].
      * eapply ru_tag; [assumption|apply tags_of_pairs; split; eassumption|exact F].
Qed.

Section WithSig.
Variables (headers : list HeaderField) (config : Config) (sig : DkimSig) (name s : str) (tags : list TagSpec) (data : list byte).
Hypothesis T : tags_of s tags.
Hypothesis S : signature_of (env_pre E) idna tags sig.
Hypothesis D : signed_data headers sig name s tags data.

Lemma checks_eq : forall k, key_checks E headers config sig name s k = key_record_checks E config sig data k.
Proof using T S D.
  intros k. unfold key_checks, key_record_checks, signed_digest. apply (signed_data_iff E) in D; [|assumption..]. rewrite <- D. reflexivity.
Qed.

Lemma tried_iff : forall txt k e, record_outcome E headers config sig name s txt k e <-> tried E config sig data txt k e.
Proof using T S D.
  intros txt k e. split.
  - intros [A|rt x A B|rt r x A B F].
    + apply tr_unreadable. apply record_unreadable_iff. auto.
    + apply tr_unreadable. apply record_unreadable_iff. right. eauto.
    + apply tr_checked; [apply record_reads_iff; eauto|]. rewrite <- checks_eq. exact F.
  - intros [x A|r x A F].
    + apply record_unreadable_iff in A as [[A ->]|(rt & A & B)]; [apply ro_not_text; exact A|eapply ro_format; eassumption].
    + apply record_reads_iff in A as (rt & A & B). eapply ro_record; [eassumption..|]. rewrite checks_eq. exact F.
Qed.

Lemma decided_iff : forall txts k e, records_outcome E headers config sig name s txts k e <-> decided E config sig data txts k e.
Proof using T S D.
  intros txts k e. split.
  - intros H. induction H as [txt more r A|txt r e A|txt more r e r' e' N A R IH].
    + apply (dc_confirmed _ _ _ _ _ _ [] txt more); [reflexivity|constructor|apply tried_iff; exact A].
    + apply (dc_failed _ _ _ _ _ _ [] txt e); [reflexivity|constructor|apply tried_iff; exact A].
    + apply tried_iff in A. destruct IH as [before x after -> F K|before x y -> F K].
      * apply (dc_confirmed _ _ _ _ _ _ (txt :: before) x after); [reflexivity|constructor; eauto|exact K].
      * apply (dc_failed _ _ _ _ _ _ (txt :: before) x y); [reflexivity|constructor; eauto|exact K].
  - assert (forall before more k e, more <> [] -> Forall (fun t => exists k' e', tried E config sig data t k' (Some e')) before ->
      records_outcome E headers config sig name s more k e -> records_outcome E headers config sig name s (before ++ more) k e) as X.
    { intros before more k0 e0 N F R. induction F as [|t before (k' & e' & A) F IH]; [exact R|]. cbn [app].
      eapply rs_more; [|apply tried_iff; exact A|exact IH]. destruct before; [exact N|discriminate]. }
    intros [before x after -> F K|before x y -> F K]; apply X; try discriminate; try exact F.
    + destruct k as [k|]; [|inversion K]. apply rs_success. apply tried_iff. exact K.
    + apply rs_last. apply tried_iff. exact K.
Qed.

End WithSig.

(** ** Bodies *)

Lemma body_iff : forall config sig body st, st = body_status E config sig body <->
  exists e, first_of (body_checks E config sig body) e /\ st = reported e.
Proof.
  intros config sig body st.
  assert (exists e, first_of (body_checks E config sig body) e /\ body_status E config sig body = reported e) as (e & F & X).
  { unfold body_status, expected_result, body_checks.
    set (cb := canonical_body _ body). set (h := hash_fn C (alg_hash (s_algorithm sig))).
    destruct (s_body_length sig) as [l|].
    - destruct (N.of_nat (length cb) <? l) eqn:L1.
      { exists (Some VInsufficientContent). split; [|reflexivity]. apply fo_here. exists l. split; [reflexivity|lia]. }
      destruct (cf_forbid_unsigned_content config && (l <? N.of_nat (length cb))) eqn:L2.
      { apply andb_prop in L2 as [L2 L3]. exists (Some (Policy UnsignedContent)). split; [|reflexivity].
        apply fo_next; [intros (l' & Q & Q'); injection Q as <-; lia|]. apply fo_here. split; [exact L2|]. exists l. split; [reflexivity|lia]. }
      assert (forall o, first_of [(exists covered rest, cb = covered ++ rest /\ N.of_nat (length covered) = l /\ h covered <> s_body_hash sig, BodyHashMismatch)] o ->
        first_of [(exists l0, Some l = Some l0 /\ N.of_nat (length cb) < l0, VInsufficientContent);
          (cf_forbid_unsigned_content config = true /\ (exists l0, Some l = Some l0 /\ l0 < N.of_nat (length cb)), Policy UnsignedContent);
          (exists covered rest, cb = covered ++ rest /\ N.of_nat (length covered) = l /\ h covered <> s_body_hash sig, BodyHashMismatch)] o) as Y.
      { intros o Fo. apply fo_next; [intros (l' & Q & Q'); injection Q as <-; lia|]. apply fo_next; [|exact Fo].
        intros (G & l' & Q & Q'). injection Q as <-. rewrite G in L2. cbn [andb] in L2. lia. }
      assert (cb = firstn (N.to_nat l) cb ++ skipn (N.to_nat l) cb) as Sp by (symmetry; apply firstn_skipn).
      assert (N.of_nat (length (firstn (N.to_nat l) cb)) = l) as Le by (rewrite firstn_length; lia).
      assert (forall covered rest, cb = covered ++ rest -> N.of_nat (length covered) = l -> covered = firstn (N.to_nat l) cb) as Un.
      { intros covered rest -> <-. rewrite Nat2N.id, firstn_app, Nat.sub_diag, firstn_all. cbn [firstn]. rewrite app_nil_r. reflexivity. }
      destruct (leqb (h (firstn (N.to_nat l) cb)) (s_body_hash sig)) eqn:M.
      + apply leqb_eq in M. exists None. split; [|reflexivity]. apply Y. apply fo_next; [|constructor].
        intros (covered & rest & Q1 & Q2 & Q3). rewrite (Un _ _ Q1 Q2) in Q3. contradiction.
      + exists (Some BodyHashMismatch). split; [|reflexivity]. apply Y. apply fo_here. eexists _, _. split; [exact Sp|]. split; [exact Le|].
        intros Q. apply leqb_eq in Q. rewrite Q in M. discriminate M.
    - assert (forall o, first_of [(exists covered rest, cb = covered ++ rest /\ rest = [] /\ h covered <> s_body_hash sig, BodyHashMismatch)] o ->
        first_of [(exists l0, None = Some l0 /\ N.of_nat (length cb) < l0, VInsufficientContent);
          (cf_forbid_unsigned_content config = true /\ (exists l0, None = Some l0 /\ l0 < N.of_nat (length cb)), Policy UnsignedContent);
          (exists covered rest, cb = covered ++ rest /\ rest = [] /\ h covered <> s_body_hash sig, BodyHashMismatch)] o) as Y.
      { intros o Fo. apply fo_next; [intros (l' & Q & _); discriminate Q|]. apply fo_next; [|exact Fo]. intros (_ & l' & Q & _). discriminate Q. }
      destruct (leqb (h cb) (s_body_hash sig)) eqn:M.
      + apply leqb_eq in M. exists None. split; [|reflexivity]. apply Y. apply fo_next; [|constructor].
        intros (covered & rest & Q1 & -> & Q3). rewrite app_nil_r in Q1. subst covered. contradiction.
      + exists (Some BodyHashMismatch). split; [|reflexivity]. apply Y. apply fo_here. exists cb, []. rewrite app_nil_r. split; [reflexivity|]. split; [reflexivity|].
        intros Q. apply leqb_eq in Q. rewrite Q in M. discriminate M. }
  split; [intros ->; eauto|]. intros (e' & F' & ->). rewrite (first_of_det _ _ _ _ F' F). symmetry. exact X.
Qed.

(** ** Results *)

Lemma signed_data_exists : forall headers sig name s tags, tags_of s tags -> signature_of (env_pre E) idna tags sig ->
  exists data, signed_data headers sig name s tags data.
Proof. intros. eexists. apply (signed_data_iff E); [assumption..|reflexivity]. Qed.

Theorem verdict_iff : forall zone headers config now body i name value r,
  verdict E (fun p => zone (key_name p)) headers config now body i name value r
  <-> dkim_verdict E zone headers config now body i name value r.
Proof.
  intros zone headers config now body i name value r. split.
  - intros [s e H|s sig e H F|s sig [d sl] k e [H F] [L1 L2] A K|s sig [d sl] [H F] [L1 L2] A|s sig [d sl] txts k e [H F] [L1 L2] A K|s sig [d sl] txts k [H F] [L1 L2] A K];
      try (apply reads_iff in H as (tags & H)).
    + apply dv_unreadable. apply unreadable_iff. eauto.
    + eapply dv_refused; eassumption.
    + eapply dv_no_key; [eassumption..|right; eauto].
    + eapply dv_no_key; [eassumption..|left; auto].
    + pose proof H as (_ & _ & T & S). destruct (signed_data_exists headers sig name s tags T S) as (data & D).
      eapply dv_key; [eassumption..|]. apply (decided_iff headers config sig name s tags data); eassumption.
    + pose proof H as (_ & _ & T & S). destruct (signed_data_exists headers sig name s tags T S) as (data & D).
      destruct (proj1 (body_iff config sig body _) eq_refl) as (e & B & ->).
      eapply dv_body; [eassumption..| |exact B]. apply (decided_iff headers config sig name s tags data); eassumption.
  - intros [e H|s tags sig e H F|s tags sig d sl answer e H F L1 L2 A K|s tags sig d sl txts data k e H F L1 L2 A D K|s tags sig d sl txts data k e H F L1 L2 A D K B];
      try (pose proof H as (_ & _ & T & S); assert (signature_read E value s (Ok sig)) as R by (apply reads_iff; eauto)).
    + apply unreadable_iff in H as (s & H). eapply vd_format; exact H.
    + eapply vd_check; eassumption.
    + destruct K as [[-> ->]|(k & -> & K)].
      * apply (vd_no_key _ _ _ _ _ _ _ _ _ s sig (d, sl)); [split; assumption|split; assumption|exact A].
      * eapply (vd_lookup _ _ _ _ _ _ _ _ _ s sig (d, sl)); [split; assumption|split; assumption|exact A|exact K].
    + eapply (vd_key _ _ _ _ _ _ _ _ _ s sig (d, sl)); [split; assumption|split; assumption|exact A|]. apply (decided_iff headers config sig name s tags data); eassumption.
    + rewrite (proj2 (body_iff config sig body (reported e))) by eauto.
      eapply (vd_body _ _ _ _ _ _ _ _ _ s sig (d, sl)); [split; assumption|split; assumption|exact A|]. apply (decided_iff headers config sig name s tags data); eassumption.
Qed.

Theorem verifier_exact : forall w headers config chunks zone o, world_ok w -> header_fields headers -> steady (w_resolver w) zone ->
  (verify_message E w headers config chunks = Val o <->
   (examined config headers = [] /\ o = None)
   \/ (examined config headers <> [] /\ exists rs, o = Some rs
        /\ Forall2 (fun f r => dkim_verdict E zone headers config (w_clock w (fst f)) (concat chunks) (fst f) (fst (snd f)) (snd (snd f)) r)
             (examined config headers) rs)).
Proof.
  intros w headers config chunks zone o W Hh St.
  assert (forall rs, verify_message E w headers config chunks = Val (Some rs) ->
    Forall2 (fun f r => verdict E (fun p => zone (key_name p)) headers config (w_clock w (fst f)) (concat chunks) (fst f) (fst (snd f)) (snd (snd f)) r)
      (examined config headers) rs) as X.
  { intros rs M. exact (evaluation_verdicts _ _ _ _ _ _ _ (steady_evaluation _ _ _ _ _ _ _ W Hh St M)). }
  destruct (verify_message_cases E w headers config chunks W Hh) as [[N M]|(N & rs & M & _)]; rewrite M; split.
  - intros Q. injection Q as <-. auto.
  - intros [[_ ->]|[Q _]]; [reflexivity|contradiction].
  - intros Q. injection Q as <-. right. split; [exact N|]. exists rs. split; [reflexivity|]. specialize (X rs M). clear - X. induction X; constructor; [apply verdict_iff; assumption|assumption].
  - intros [[Q _]|(_ & rs' & -> & F)]; [contradiction|]. f_equal. f_equal. specialize (X rs M). clear - X F.
    revert rs' F. induction X as [|f r fs rs V X IH]; intros rs' F; inversion F; subst; [reflexivity|]. f_equal; [|apply IH; assumption].
    eapply verdict_det; [exact V|]. apply verdict_iff. eassumption.
Qed.

End WithEnv.
