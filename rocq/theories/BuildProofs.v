(** Proofs about builds of the library (C99). *)

From Coq Require Import String List Permutation Arith.
From Verif Require Import Base Utf8 Canon BodyHash Header TagList Domain Signature KeyRecord Crypto Format Sign Verify
  SpecText SpecCanon SpecHash SpecHeader SpecTag SpecDomain SpecSig SpecRecord SpecSign SpecOutput SpecVerify SpecEnd SpecDkim SpecBuild
  SigProofs SignProofs VerifyProofs VerifyFacts DkimProofs TransitProofs EndProofs Lib.
Import ListNotations.
Open Scope N_scope.

(** ** Signatures and records *)

Lemma signature_build : forall pre pre' idna tags sig, signature_of pre idna tags sig ->
  (s_algorithm sig = RsaSha1 -> pre' = true) -> signature_of pre' idna tags sig.
Proof.
  intros pre pre' idna tags sig (H1 & (t & H2 & H3) & H4) P. split; [exact H1|]. split; [|exact H4].
  exists t. split; [exact H2|]. destruct (s_algorithm sig); inversion H3; subst; [apply at_rsa|apply at_ed|apply at_sha1]; auto.
Qed.

Lemma signature_no_sha1 : forall idna tags sig, signature_of false idna tags sig -> s_algorithm sig <> RsaSha1.
Proof. intros idna tags sig (_ & (t & _ & H) & _) X. rewrite X in H. inversion H. discriminate. Qed.

Lemma bad_tag_build : forall pre pre' idna u k, bad_tag pre idna u k -> k <> EHistoricAlgorithm ->
  bad_tag pre' idna u k.
Proof.
  intros pre pre' idna u k (n & N1 & H) Hk. exists n. split; [exact N1|].
  inversion H; subst; try (exfalso; apply Hk; reflexivity); try (econstructor; eassumption); try solve [constructor; assumption].
  apply te_a; [assumption|]. intros a X. inversion X; subst; [apply (H1 RsaSha256); apply at_rsa; assumption|apply (H1 Ed25519Sha256); apply at_ed; assumption|contradiction].
Qed.

Lemma tag_error_name : forall pre idna n t k, tag_error pre idna n t k -> k = EHistoricAlgorithm -> pre = false.
Proof. intros pre idna n t k H K. subst k. inversion H. assumption. Qed.

Lemma tag_get_in : forall n tags v, tag_get n tags = Some v -> exists u, In u tags /\ tag_name u = n /\ tag_value u = v.
Proof.
  intros n tags v. induction tags as [|t ts IH]; [discriminate|]. cbn [tag_get]. destruct (leqb (tag_name t) n) eqn:Q.
  - intros [= <-]. exists t. split; [left; reflexivity|]. split; [apply leqb_eq; exact Q|reflexivity].
  - intros H. destruct (IH H) as (u & U1 & U2). exists u. split; [right; exact U1|exact U2].
Qed.

(** a signature with SHA-1, for a build without the feature *)
Lemma historic : forall idna s sig, sig_from_str true idna s = Val (Ok sig) -> s_algorithm sig = RsaSha1 ->
  exists e, sig_from_str false idna s = Val (Err e) /\ se_kind e = EHistoricAlgorithm.
Proof.
  intros idna s sig H A. pose proof H as H0. apply sig_ok_iff in H0 as (tags & T & So).
  pose proof So as (_ & (t & Ga & At) & _). rewrite A in At. inversion At as [| |_ Nm]; clear At.
  destruct (tag_get_in _ _ _ Ga) as (ua & I1 & I2 & I3).
  assert (bad_tag false idna ua EHistoricAlgorithm) as Bad.
  { exists "a"%string. split; [exact I2|]. rewrite I3. apply te_a_historic; [reflexivity|exact Nm]. }
  destruct (sig_from_str_spec false idna s) as (r & Er & R1 & R2). destruct r as [sig'|e].
  - exfalso. destruct (proj1 (R1 sig') eq_refl) as (tags' & T' & So'). rewrite T in T'. injection T' as <-.
    destruct So' as (_ & (t' & Ga' & At') & _). rewrite Ga in Ga'. injection Ga' as <-. unfold named in Nm.
    inversion At' as [X|X|X]; unfold named in X; [rewrite Nm in X; discriminate X|rewrite Nm in X; discriminate X|discriminate X].
  - exists e. split; [exact Er|]. destruct (proj1 (R2 e) eq_refl) as [[X _]|(tags' & k & T' & F & ->)]; [exfalso; exact (X tags T)|].
    rewrite T in T'. injection T' as <-. cbn [se_kind raw_error].
    destruct (sig_err_iff true idna s (raw_error tags k)) as [_ B].
    inversion F as [before u after k' Et Nb Bu|before n k' after Nb|Nb|? ? ? ? Nb]; subst.
    + destruct Bu as (n & N1 & N2).
      assert (k = EHistoricAlgorithm \/ k <> EHistoricAlgorithm) as [->|Nk]; [destruct k; (left; reflexivity) || (right; discriminate)|reflexivity|].
      exfalso. assert (sig_from_str true idna s = Val (Err (raw_error (before ++ u :: after) k))) as Z; [|congruence].
      apply B. right. exists (before ++ u :: after), k. split; [exact T|]. split; [|reflexivity].
      eapply fe_tag; [reflexivity| |apply (bad_tag_build false true); [exists n; auto|exact Nk]].
      intros v k' Iv Bv. apply (Nb v k' Iv). apply (bad_tag_build true false); [exact Bv|].
      intros ->. destruct Bv as (n' & _ & B'). discriminate (tag_error_name _ _ _ _ _ B' eq_refl).
    + exfalso. eapply Nb; eassumption.
    + exfalso. eapply Nb; eassumption.
    + exfalso. eapply Nb; eassumption.
Qed.

Lemma recognised_build : forall pre pre' items l, recognised (hash_name pre) items l ->
  exists l', recognised (hash_name pre') items l' /\ (In Sha256 l <-> In Sha256 l').
Proof.
  intros pre pre' items l H. induction H as [|s a ss l Ha H IH|s ss l Hn H IH].
  - exists []. split; [constructor|reflexivity].
  - destruct IH as (l' & L1 & L2). inversion Ha; subst.
    + exists (Sha256 :: l'). split; [apply rc_some; [apply hn_sha256; assumption|exact L1]|]. split; intros _; left; reflexivity.
    + destruct pre'; [exists (Sha1 :: l')|exists l'].
      * split; [apply rc_some; [apply hn_sha1; auto|exact L1]|]. cbn [In]. split; (intros [X|X]; [discriminate X|right; apply L2; exact X]).
      * split; [apply rc_none; [apply hn_sha1_not; auto|exact L1]|]. cbn [In]. split; [intros [X|X]; [discriminate X|apply L2; exact X]|intros X; right; apply L2; exact X].
  - destruct IH as (l' & L1 & L2). inversion Hn; subst.
    + destruct pre'; [exists (Sha1 :: l')|exists l'].
      * split; [apply rc_some; [apply hn_sha1; auto|exact L1]|]. cbn [In]. split; [intros X; right; apply L2; exact X|intros [X|X]; [discriminate X|apply L2; exact X]].
      * split; [apply rc_none; [apply hn_sha1_not; auto|exact L1]|exact L2].
    + exists l'. split; [apply rc_none; [apply hn_unknown; assumption|exact L1]|exact L2].
Qed.

Lemma record_build : forall pre pre' tags k, record_of pre tags k -> In Sha256 (k_hash_algorithms k) ->
  exists k', record_of pre' tags k' /\ same_record k k'.
Proof.
  intros pre pre' tags k (H1 & H2 & H3) I.
  assert (exists hs, or_default (fun t v => names_text (hash_name pre') t v /\ v <> []) (if pre' then [Sha256; Sha1] else [Sha256]) (get "h" tags) hs
            /\ In Sha256 hs) as (hs & S1 & S2).
  { unfold or_default in *. destruct (get "h" tags) as [t|].
    - destruct H2 as [(items & It & R) _]. destruct (recognised_build pre pre' items _ R) as (l' & L1 & L2). exists l'.
      assert (In Sha256 l') as I' by (apply L2; exact I). split; [|exact I']. split; [exists items; auto|]. intros ->. destruct I'.
    - eexists. split; [reflexivity|]. destruct pre'; left; reflexivity. }
  exists (mkKeyRecord hs (k_key_type k) (k_notes k) (k_key_data k) (k_service_types k) (k_flags k) (k_ext_tags k)).
  split; [split; [exact H1|]; split; [exact S1|exact H3]|]. unfold same_record. cbn. tauto.
Qed.

Lemma same_record_refl : forall k, same_record k k.
Proof. intros k. unfold same_record. tauto. Qed.

(** ** Verdicts *)

Section WithCrypto.
Variables (idna : Idna) (C : Crypto).
Notation build := (build idna C).

Lemma key_in_build : forall pre m pre' m' t d key, key_in (build pre m) t d key -> key_in (build pre' m') t d key.
Proof.
  intros pre m pre' m' t d key H. destruct H as [d k H|d k H H'|d k H|d k H H'].
  - exact (ki_spki (build pre' m') d k H).
  - exact (ki_pkcs1 (build pre' m') d k H H').
  - exact (ki_raw (build pre' m') d k H).
  - exact (ki_ed_spki (build pre' m') d k H H').
Qed.

Lemma valid_build : forall pre m pre' m' canonical zone config now headers body name value sig k,
  valid_dkim (build pre m) canonical zone config now headers body name value sig k ->
  (s_algorithm sig = RsaSha1 -> pre' = true) -> (forall l, s_body_length sig = Some l -> l <= m') ->
  (pre' = false -> key_of_1024 idna C k) ->
  exists k', same_record k k' /\ valid_dkim (build pre' m') canonical zone config now headers body name value sig k'.
Proof.
  intros pre m pre' m' canonical zone config now headers body name value sig k
    (s & tags & txt & key & data & rest & V1 & V2 & V3 & V4 & V5 & V6 & V7 & V8 & V9 & V10 & V11) A L K.
  cbn [env_pre env_idna SpecBuild.build] in V4.
  assert (exists k', same_record k k' /\ key_for (build pre' m') sig config txt k' key) as (k' & K1 & K2).
  { destruct V7 as ((s0 & tags0 & S1 & S2 & S3 & S4) & B2 & B3 & B4 & B5 & B6 & B7). cbn [env_pre SpecBuild.build] in S4, B7.
    assert (exists k', same_record k k' /\ record_of pre' tags0 k' /\ In (alg_hash (s_algorithm sig)) (k_hash_algorithms k')) as (k' & Sr & R' & I').
    { destruct (bool_dec pre pre') as [<-|Np]; [exists k; split; [apply same_record_refl|auto]|].
      assert (alg_hash (s_algorithm sig) = Sha256) as Q.
      { destruct (s_algorithm sig) eqn:X; try reflexivity. exfalso. rewrite (A eq_refl) in Np. destruct pre; [apply Np; reflexivity|]. exact (signature_no_sha1 _ _ _ V4 X). }
      rewrite Q in *. destruct (record_build pre pre' tags0 k S4 B4) as (k' & R' & Sr). exists k'. split; [exact Sr|]. split; [exact R'|]. apply Sr. exact B4. }
    exists k'. split; [exact Sr|]. destruct Sr as (Q1 & Q2 & Q3 & Q4 & Q5 & Q6 & Q7).
    split; [exists s0, tags0; auto|]. rewrite <- Q1, <- Q3, <- Q5. split; [exact B2|]. split; [exact B3|]. split; [exact I'|]. split; [exact B5|].
    split; [eapply key_in_build; exact B6|]. intros pk ->. specialize (B7 pk eq_refl). cbn [env_pre env_crypto SpecBuild.build] in *.
    destruct pre'; [destruct pre; lia|]. specialize (K eq_refl pre m pk B6). cbn [env_crypto SpecBuild.build] in K. destruct pre; lia. }
  exists k'. split; [exact K1|]. exists s, tags, txt, key, data, rest.
  split; [exact V1|]. split; [exact V2|]. split; [exact V3|]. split; [apply (signature_build pre); assumption|].
  split. { destruct V5 as (G1 & G2 & _ & G4). split; [exact G1|]. split; [exact G2|]. split; [exact L|exact G4]. }
  split; [exact V6|]. split; [exact K2|]. split; [exact V8|]. split; [exact V9|]. split; [exact V10|exact V11].
Qed.

Lemma same_1024 : forall k k', same_record k k' -> key_of_1024 idna C k' -> key_of_1024 idna C k.
Proof. intros k k' (Q1 & _ & Q3 & _) H pre m pk X. rewrite Q1, Q3 in X. exact (H pre m pk X). Qed.

(** without the feature, keys that verify have 1024 bits *)
Lemma valid_1024 : forall m canonical zone config now headers body name value sig k,
  valid_dkim (build false m) canonical zone config now headers body name value sig k ->
  s_algorithm sig <> RsaSha1 /\ key_of_1024 idna C k.
Proof.
  intros m canonical zone config now headers body name value sig k (s & tags & txt & key & data & rest & _ & _ & _ & V4 & _ & _ & V7 & _).
  split; [exact (signature_no_sha1 _ _ _ V4)|]. destruct V7 as (_ & _ & _ & _ & _ & B6 & B7). intros pre m' pk X.
  apply (key_in_build pre m' false m) in X. assert (key = VkRsa pk) as ->; [|specialize (B7 pk eq_refl); cbn [env_pre env_crypto SpecBuild.build] in B7; lia].
  clear -X B6. cbn [env_crypto SpecBuild.build] in *. inversion X; subst; rewrite <- H in B6; inversion B6; subst; cbn [env_crypto SpecBuild.build] in *; congruence.
Qed.

Theorem feature_success : forall m w headers config chunks zone rs rs' i name value r r', world_ok w -> steady (w_resolver w) zone -> header_fields headers ->
  verify_message (build false m) w headers config chunks = Val (Some rs) -> result_for config headers rs i name value r ->
  verify_message (build true m) w headers config chunks = Val (Some rs') -> result_for config headers rs' i name value r' ->
  let valid := valid_dkim (build true m) canonical_body zone config (w_clock w i) headers (concat chunks) name value in
  vr_status r = Success <-> exists sig k, valid sig k /\ s_algorithm sig <> RsaSha1 /\ key_of_1024 idna C k.
Proof.
  intros m w headers config chunks zone rs rs' i name value r r' W St Hh M RF M' RF' valid.
  destruct (success_exact _ _ _ _ _ _ _ _ _ _ _ W St Hh M RF) as (X1 & _). rewrite X1. clear X1. split.
  - intros (sig & k & V). pose proof (valid_1024 _ _ _ _ _ _ _ _ _ _ _ V) as (A & K).
    assert (forall l, s_body_length sig = Some l -> l <= m) as L.
    { destruct V as (? & ? & ? & ? & ? & ? & _ & _ & _ & _ & G & _). apply G. }
    destruct (valid_build false m true m _ _ _ _ _ _ _ _ _ _ V) as (k' & Sr & V'); [reflexivity|exact L|discriminate|].
    exists sig, k'. split; [exact V'|]. split; [exact A|]. eapply same_1024; [|exact K].
    destruct Sr as (Q1 & Q2 & Q3 & Q4 & Q5 & Q6 & Q7). unfold same_record. rewrite Q1, Q2, Q3, Q4, Q5, Q6. tauto.
  - intros (sig & k & V & A & K).
    assert (forall l, s_body_length sig = Some l -> l <= m) as L.
    { destruct V as (? & ? & ? & ? & ? & ? & _ & _ & _ & _ & G & _). apply G. }
    destruct (valid_build true m false m _ _ _ _ _ _ _ _ _ _ V) as (k' & _ & V'); [intros X; contradiction|exact L|intros _; exact K|].
    exists sig, k'. exact V'.
Qed.

(** ** Signatures that are read *)

Lemma read_build : forall pre m m' value s r, signature_read (build pre m) value s r -> signature_read (build pre m') value s r.
Proof.
  intros pre m m' value s r H. destruct H as [s r H1 H2 H3|H].
  - exact (sgr_text (build pre m') value s r H1 H2 H3).
  - exact (sgr_not_utf8 (build pre m') value H).
Qed.

Lemma verdict_read : forall E answer headers config now body i name value r, verdict E answer headers config now body i name value r ->
  exists s, (exists sig, signature_read E value s (Ok sig) /\ vr_signature r = Some sig /\ exists o, first_of (signature_checks E headers config now sig) o)
         \/ (exists e, signature_read E value s (Err e) /\ r = mkVResult (Failure (DkimSignatureFormat e)) i None None).
Proof.
  intros E answer headers config now body i name value r V.
  destruct V as [s1 e H|s1 sig1 e H F|s1 sig1 p k e [H F] _ _ _|s1 sig1 p [H F] _ _|s1 sig1 p txts r0 e [H F] _ _ _|s1 sig1 p txts r0 [H F] _ _ _];
    exists s1; try (left; exists sig1; split; [exact H|split; [reflexivity|eexists; exact F]]); right; exists e; auto.
Qed.

Theorem feature_read : forall m m' answer answer' headers config now body i name value r r',
  verdict (build false m) answer headers config now body i name value r ->
  verdict (build true m') answer' headers config now body i name value r' ->
  (forall sig, vr_signature r = Some sig <-> vr_signature r' = Some sig /\ s_algorithm sig <> RsaSha1)
  /\ (forall sig, vr_signature r' = Some sig -> s_algorithm sig = RsaSha1 ->
        exists e, vr_status r = Failure (DkimSignatureFormat e) /\ se_kind e = EHistoricAlgorithm).
Proof.
  intros m m' answer answer' headers config now body i name value r r' V V'.
  assert (forall sig, vr_signature r' = Some sig -> exists s, signature_read (build true m') value s (Ok sig)) as R'.
  { intros sig X. destruct (verdict_read _ _ _ _ _ _ _ _ _ _ V') as (s & [(sig' & H1 & H2 & _)|(e & _ & ->)]); [|discriminate X].
    rewrite X in H2. injection H2 as <-. exists s. exact H1. }
  assert (forall sig, vr_signature r = Some sig -> exists s, signature_read (build false m) value s (Ok sig)) as R.
  { intros sig X. destruct (verdict_read _ _ _ _ _ _ _ _ _ _ V) as (s & [(sig' & H1 & H2 & _)|(e & _ & ->)]); [|discriminate X].
    rewrite X in H2. injection H2 as <-. exists s. exact H1. }
  split; [intros sig; split|].
  - intros X. destruct (R sig X) as (s & Rd). apply read_iff in Rd as (S1 & S2 & tags & T & So). cbn [env_pre env_idna SpecBuild.build] in So.
    split; [|exact (signature_no_sha1 _ _ _ So)]. eapply verdict_signature; [exact V'|]. apply read_iff. split; [exact S1|]. split; [exact S2|].
    exists tags. split; [exact T|]. apply (signature_build false); [exact So|reflexivity].
  - intros (X & A). destruct (R' sig X) as (s & Rd). apply read_iff in Rd as (S1 & S2 & tags & T & So). cbn [env_pre env_idna SpecBuild.build] in So.
    eapply verdict_signature; [exact V|]. apply read_iff. split; [exact S1|]. split; [exact S2|].
    exists tags. split; [exact T|]. apply (signature_build true); [exact So|intros Y; contradiction].
  - intros sig X A. destruct (R' sig X) as (s & Rd). inversion Rd as [s0 r0 S1 S2 S3|]; subst.
    destruct (historic _ _ _ S3 A) as (e & E1 & E2). exists e. split; [|exact E2].
    assert (signature_read (build false m) (as_bytes s) s (Err e)) as Re by (apply sgr_text; [exact S1|reflexivity|exact E1]).
    destruct (verdict_read _ _ _ _ _ _ _ _ _ _ V) as (s' & [(sig' & H1 & H2 & _)|(e' & H1 & ->)]); destruct (signature_read_det _ _ _ _ _ _ Re H1) as [_ Z]; [discriminate Z|].
    injection Z as <-. reflexivity.
Qed.

(** ** Width *)

Lemma key_checks_build : forall pre m m' headers config sig name s k e,
  first_of (key_checks (build pre m) headers config sig name s k) e -> first_of (key_checks (build pre m') headers config sig name s k) e.
Proof.
  intros pre m m' headers config sig name s k e H. refine (first_of_iff _ _ _ e _ H).
  repeat (apply Forall2_cons || apply Forall2_nil); (split; [|reflexivity]); cbn [fst]; try reflexivity;
    split; intros X; try (intros key Y; apply (X key); eapply key_in_build; exact Y);
    destruct X as (key & X1 & X2); exists key; (split; [eapply key_in_build; exact X1|exact X2]).
Qed.

Lemma record_outcome_build : forall pre m m' headers config sig name s txt k e,
  record_outcome (build pre m) headers config sig name s txt k e -> record_outcome (build pre m') headers config sig name s txt k e.
Proof.
  intros pre m m' headers config sig name s txt k e H. destruct H as [H|s0 e H1 H2|s0 k e H1 H2 H3].
  - apply ro_not_text. exact H.
  - eapply ro_format; [exact H1|exact H2].
  - eapply ro_record; [exact H1|exact H2|]. eapply key_checks_build. exact H3.
Qed.

Lemma records_outcome_build : forall pre m m' headers config sig name s txts k e,
  records_outcome (build pre m) headers config sig name s txts k e -> records_outcome (build pre m') headers config sig name s txts k e.
Proof.
  intros pre m m' headers config sig name s txts k e H. induction H as [txt more k H|txt k e H|txt more k e k' e' N H Hs IH].
  - apply rs_success. eapply record_outcome_build. exact H.
  - apply rs_last. eapply record_outcome_build. exact H.
  - eapply rs_more; [exact N|eapply record_outcome_build; exact H|exact IH].
Qed.

Lemma checks_build : forall pre m m' headers config now sig e,
  (forall l, s_body_length sig = Some l -> l <= m /\ l <= m') ->
  first_of (signature_checks (build pre m) headers config now sig) e -> first_of (signature_checks (build pre m') headers config now sig) e.
Proof.
  intros pre m m' headers config now sig e L H. refine (first_of_iff _ _ _ e _ H).
  repeat (apply Forall2_cons || apply Forall2_nil); (split; [|reflexivity]); cbn [fst]; try reflexivity.
  split; intros (l & L1 & L2); destruct (L l L1) as [X Y]; cbn [env_usize_max SpecBuild.build] in L2; lia.
Qed.

(** a length that is too large is what is noticed, unless something else is first *)
Lemma checks_long : forall pre m m' headers config now sig l e, s_body_length sig = Some l -> m < l ->
  first_of (signature_checks (build pre m') headers config now sig) e ->
  (first_of (signature_checks (build pre m) headers config now sig) e
   /\ In e [Some (Policy RequiredHeaderNotSigned); Some (Policy UnsignedHeaderOccurrence); Some VOverflow])
  \/ first_of (signature_checks (build pre m) headers config now sig) (Some VOverflow).
Proof.
  intros pre m m' headers config now sig l e Hl Hm H.
  assert (length_unusable (build pre m) sig) as Lu by (exists l; auto).
  inversion H as [|P a q X|P a q e' X H1]; subst; [left; split; [apply fo_here; exact X|left; reflexivity]|].
  inversion H1 as [|P a q X1|P a q e' X1 H2]; subst; [left; split; [apply fo_next; [exact X|apply fo_here; exact X1]|right; left; reflexivity]|].
  right. apply fo_next; [exact X|]. apply fo_next; [exact X1|]. apply fo_here. exact Lu.
Qed.

Lemma verdict_build : forall pre m m' answer headers config now body i name value r,
  verdict (build pre m) answer headers config now body i name value r ->
  (forall sig l, vr_signature r = Some sig -> s_body_length sig = Some l -> l <= m /\ l <= m') ->
  verdict (build pre m') answer headers config now body i name value r.
Proof.
  intros pre m m' answer headers config now body i name value r V L.
  assert (forall s sig, vr_signature r = Some sig -> in_progress (build pre m) headers config now value s sig -> in_progress (build pre m') headers config now value s sig) as P.
  { intros s sig X [P1 P2]. split; [eapply read_build; exact P1|]. eapply checks_build; [|exact P2]. intros l Hl. exact (L sig l X Hl). }
  destruct V as [s1 e H|s1 sig1 e H F|s1 sig1 p k e H Lp A K|s1 sig1 p H Lp A|s1 sig1 p txts r0 e H Lp A R|s1 sig1 p txts r0 H Lp A R]; cbn [vr_signature] in *.
  - eapply vd_format. eapply read_build. exact H.
  - eapply vd_check; [eapply read_build; exact H|]. eapply checks_build; [|exact F]. intros l Hl. exact (L sig1 l eq_refl Hl).
  - exact (vd_lookup (build pre m') _ _ _ _ _ _ _ _ s1 sig1 p k e (P s1 sig1 eq_refl H) Lp A K).
  - exact (vd_no_key (build pre m') _ _ _ _ _ _ _ _ s1 sig1 p (P s1 sig1 eq_refl H) Lp A).
  - exact (vd_key (build pre m') _ _ _ _ _ _ _ _ s1 sig1 p txts r0 e (P s1 sig1 eq_refl H) Lp A (records_outcome_build _ _ _ _ _ _ _ _ _ _ _ R)).
  - exact (vd_body (build pre m') _ _ _ _ _ _ _ _ s1 sig1 p txts r0 (P s1 sig1 eq_refl H) Lp A (records_outcome_build _ _ _ _ _ _ _ _ _ _ _ R)).
Qed.

Theorem width_verdict : forall pre m m' answer headers config now body i name value r r', m <= m' ->
  verdict (build pre m) answer headers config now body i name value r ->
  verdict (build pre m') answer headers config now body i name value r' ->
  vr_signature r = vr_signature r' /\ (r = r' \/ length_refused m r)
  /\ (forall sig l, vr_signature r = Some sig -> s_body_length sig = Some l -> m < l -> exists e, vr_status r = Failure e
        /\ In e [Policy RequiredHeaderNotSigned; Policy UnsignedHeaderOccurrence; VOverflow]).
Proof.
  intros pre m m' answer headers config now body i name value r r' Le V V'.
  assert (vr_signature r = vr_signature r') as Q.
  { destruct (verdict_read _ _ _ _ _ _ _ _ _ _ V) as (s & [(sig & H1 & H2 & _)|(e & H1 & ->)]).
    - rewrite H2. symmetry. eapply verdict_signature; [exact V'|]. eapply read_build. exact H1.
    - destruct (verdict_read _ _ _ _ _ _ _ _ _ _ V') as (s' & [(sig' & H1' & H2' & _)|(e' & _ & ->)]); [|reflexivity].
      exfalso. apply (read_build _ _ m) in H1'. destruct (signature_read_det _ _ _ _ _ _ H1 H1') as [_ Z]. discriminate Z. }
  assert ((forall sig l, vr_signature r = Some sig -> s_body_length sig = Some l -> l <= m)
          \/ exists sig l, vr_signature r = Some sig /\ s_body_length sig = Some l /\ m < l) as [L|(sig & l & Hs & Hl & Lt)].
  { destruct (vr_signature r) as [sig|]; [|left; discriminate]. destruct (s_body_length sig) as [l|] eqn:X.
    - destruct (N.le_gt_cases l m); [left|right; eauto 6]. intros sig' l' [= <-] Y. rewrite X in Y. injection Y as <-. assumption.
    - left. intros sig' l' [= <-] Y. congruence. }
  - split; [exact Q|]. split; [|intros sig l Hs Hl Lt; specialize (L sig l Hs Hl); lia]. left. eapply verdict_det; [|exact V']. eapply verdict_build; [exact V|].
    intros sig l Hs Hl. specialize (L sig l Hs Hl). lia.
  - split; [exact Q|].
    destruct (verdict_read _ _ _ _ _ _ _ _ _ _ V) as (s & [(sig0 & R1 & R2 & _)|(e & _ & ->)]); [|discriminate Hs].
    rewrite Hs in R2. injection R2 as <-.
    assert (exists e, first_of (signature_checks (build pre m) headers config now sig) (Some e)
              /\ In e [Policy RequiredHeaderNotSigned; Policy UnsignedHeaderOccurrence; VOverflow]
              /\ (e = VOverflow \/ first_of (signature_checks (build pre m') headers config now sig) (Some e))) as (e & F & I & F').
    { destruct (verdict_read _ _ _ _ _ _ _ _ _ _ V') as (s' & [(sig' & _ & R2' & o & F)|(e & _ & ->)]); [|rewrite Hs in Q; discriminate Q].
      rewrite Hs in Q. rewrite <- Q in R2'. injection R2' as <-.
      destruct (checks_long _ m _ _ _ _ _ l o Hl Lt F) as [[G I]|G]; [|exists VOverflow; split; [exact G|split; [right; right; left; reflexivity|left; reflexivity]]].
      destruct I as [<-|[<-|[<-|[]]]]; eexists; (split; [exact G|]); cbn [In]; auto. }
    assert (r = mkVResult (Failure e) i (Some sig) None) as Er by (eapply verdict_det; [exact V|]; eapply vd_check; [exact R1|exact F]).
    split.
    + destruct F' as [->|F']; [right; rewrite Er; exists sig, l; cbn; auto 6|]. left. rewrite Er. eapply verdict_det; [|exact V'].
      eapply vd_check; [eapply read_build; exact R1|exact F'].
    + intros sig' l' _ _ _. exists e. rewrite Er. auto.
Qed.

Theorem width_exact : forall pre m m' w headers config chunks zone rs rs' i name value r r', m <= m' ->
  world_ok w -> steady (w_resolver w) zone -> header_fields headers ->
  verify_message (build pre m) w headers config chunks = Val (Some rs) -> result_for config headers rs i name value r ->
  verify_message (build pre m') w headers config chunks = Val (Some rs') -> result_for config headers rs' i name value r' ->
  vr_signature r = vr_signature r' /\ (r = r' \/ length_refused m r)
  /\ (forall sig l, vr_signature r = Some sig -> s_body_length sig = Some l -> m < l -> exists e, vr_status r = Failure e
        /\ In e [Policy RequiredHeaderNotSigned; Policy UnsignedHeaderOccurrence; VOverflow]).
Proof.
  intros pre m m' w headers config chunks zone rs rs' i name value r r' Le W St Hh M RF M' RF'.
  destruct (evaluation_verdict _ _ _ _ _ _ _ _ _ _ _ (steady_evaluation _ _ _ _ _ _ _ W Hh St M) RF) as (V & _).
  destruct (evaluation_verdict _ _ _ _ _ _ _ _ _ _ _ (steady_evaluation _ _ _ _ _ _ _ W Hh St M') RF') as (V' & _).
  eapply width_verdict; eassumption.
Qed.

Theorem width_same : forall pre m m' w headers config chunks zone rs, m <= m' ->
  world_ok w -> steady (w_resolver w) zone -> header_fields headers ->
  verify_message (build pre m) w headers config chunks = Val (Some rs) ->
  (forall r, In r rs -> vr_status r <> Failure VOverflow) ->
  verify_message (build pre m') w headers config chunks = Val (Some rs).
Proof.
  intros pre m m' w headers config chunks zone rs Le W St Hh M No.
  destruct (verify_message_cases (build pre m) w headers config chunks W Hh) as [[_ X]|(Ne & _)]; [congruence|].
  destruct (verify_message_cases (build pre m') w headers config chunks W Hh) as [[X _]|(_ & rs' & M' & _)]; [contradiction|].
  rewrite M'. f_equal. f_equal. symmetry.
  pose proof (evaluation_verdicts _ _ _ _ _ _ _ (steady_evaluation _ _ _ _ _ _ _ W Hh St M)) as F.
  pose proof (evaluation_verdicts _ _ _ _ _ _ _ (steady_evaluation _ _ _ _ _ _ _ W Hh St M')) as F'.
  clear M M' Ne. revert rs' F'. induction F as [|f r fs rs V F IH]; intros rs' F'; inversion F' as [|f' r' fs' rs2 V' F2]; subst; [reflexivity|].
  f_equal; [|apply IH; [intros x Hx; apply No; right; exact Hx|exact F2]].
  destruct (width_verdict _ _ _ _ _ _ _ _ _ _ _ _ _ Le V V') as (_ & [->|(sig & l & _ & _ & _ & S & _)] & _); [reflexivity|].
  exfalso. exact (No r (or_introl eq_refl) S).
Qed.

Theorem feature_exact : forall m m' w headers config chunks zone rs rs' i name value r r',
  world_ok w -> steady (w_resolver w) zone -> header_fields headers ->
  verify_message (build false m) w headers config chunks = Val (Some rs) -> result_for config headers rs i name value r ->
  verify_message (build true m') w headers config chunks = Val (Some rs') -> result_for config headers rs' i name value r' ->
  (forall sig, vr_signature r = Some sig <-> vr_signature r' = Some sig /\ s_algorithm sig <> RsaSha1)
  /\ (forall sig, vr_signature r' = Some sig -> s_algorithm sig = RsaSha1 ->
        exists e, vr_status r = Failure (DkimSignatureFormat e) /\ se_kind e = EHistoricAlgorithm).
Proof.
  intros m m' w headers config chunks zone rs rs' i name value r r' W St Hh M RF M' RF'.
  destruct (evaluation_verdict _ _ _ _ _ _ _ _ _ _ _ (steady_evaluation _ _ _ _ _ _ _ W Hh St M) RF) as (V & _).
  destruct (evaluation_verdict _ _ _ _ _ _ _ _ _ _ _ (steady_evaluation _ _ _ _ _ _ _ W Hh St M') RF') as (V' & _).
  eapply feature_read; eassumption.
Qed.

Theorem signed_build : forall pre m pre' m' canonical key headers body name s sig,
  signed_by (build pre m) canonical key headers body name s sig -> (s_algorithm sig = RsaSha1 -> pre' = true) ->
  signed_by (build pre' m') canonical key headers body name s sig.
Proof.
  intros pre m pre' m' canonical key headers body name s sig (tags & data & rest & H1 & H2 & H3 & H4) A.
  exists tags, data, rest. split; [exact H1|]. split; [exact H2|]. split; [apply (signature_build pre); [exact H3|exact A]|exact H4].
Qed.

End WithCrypto.

(** ** Signing *)

Section Signing.
Variables (idna : Idna) (C : Crypto) (pre : bool) (m : N) (pre' : bool) (m' : N).
Notation E := (build idna C pre m).
Notation E' := (build idna C pre' m').
Notation moved := (moved idna C pre m pre' m').

Lemma moved_valid : forall r, validate_request E' (moved r) = validate_request E r.
Proof. intros []. reflexivity. Qed.

Lemma usize_both : forall b, (forall n, b = ExactLen n -> n <= m /\ n <= m') -> bl_to_usize m' b = bl_to_usize m b.
Proof.
  intros [| |n] H; try reflexivity. destruct (H n eq_refl) as [X Y]. unfold bl_to_usize.
  rewrite (proj2 (N.leb_le n m') Y), (proj2 (N.leb_le n m) X). reflexivity.
Qed.

Definition fits (r : SignRequest E) : Prop := forall n, r_body_length E r = ExactLen n -> n <= m /\ n <= m'.

Lemma moved_loop : forall rs i b, Forall fits rs -> prepare_loop E' i b (map moved rs) = prepare_loop E i b rs.
Proof.
  induction rs as [|r rs IH]; intros i b F; [reflexivity|]. apply Forall_cons_iff in F as [F Fs]. cbn [map prepare_loop].
  rewrite moved_valid. destruct (Nat.leb 10 i); [reflexivity|]. destruct (validate_request E r) as [[e|]|]; try reflexivity. cbn [bind].
  change (r_body_length E' (moved r)) with (r_body_length E r). cbn [env_usize_max SpecBuild.build].
  rewrite (usize_both _ F). destruct (bl_to_usize m (r_body_length E r)) as [len|]; [|reflexivity]. apply IH. exact Fs.
Qed.

Lemma moved_perform : forall now r headers res, fits r -> perform_signing E' now (moved r) headers res = perform_signing E now r headers res.
Proof.
  intros now r headers res F. unfold perform_signing. change (r_body_length E' (moved r)) with (r_body_length E r).
  cbn [env_usize_max SpecBuild.build]. rewrite (usize_both _ F). destruct r. reflexivity.
Qed.

Lemma moved_tasks : forall clock headers res rs i, Forall fits rs -> sign_tasks E' clock i headers res (map moved rs) = sign_tasks E clock i headers res rs.
Proof.
  intros clock headers res rs. induction rs as [|r rs IH]; intros i F; [reflexivity|]. apply Forall_cons_iff in F as [F Fs]. cbn [map sign_tasks].
  rewrite moved_perform by exact F. rewrite IH by exact Fs. reflexivity.
Qed.

Definition moved_signer (s : Signer E) : Signer E' := mkSigner E' (map moved (sg_tasks E s)) (Sign.sg_headers E s) (sg_body_hasher E s).

Lemma moved_chunks : forall chunks s, signer_chunks E' (moved_signer s) chunks = let! t := signer_chunks E s chunks in Val (moved_signer t).
Proof.
  induction chunks as [|c cs IH]; intros s; [reflexivity|]. cbn [signer_chunks]. unfold signer_chunk.
  change (sg_body_hasher E' (moved_signer s)) with (sg_body_hasher E s).
  destruct (hash_chunk (sg_body_hasher E s) c) as [[st bh]|]; cbn [bind]; [|reflexivity].
  change (mkSigner E' (sg_tasks E' (moved_signer s)) (Sign.sg_headers E' (moved_signer s)) bh) with (moved_signer (mkSigner E (sg_tasks E s) (Sign.sg_headers E s) bh)).
  apply IH.
Qed.

Lemma chunks_tasks : forall chunks s t, signer_chunks E s chunks = Val t -> sg_tasks E t = sg_tasks E s.
Proof.
  induction chunks as [|c cs IH]; intros s t; cbn [signer_chunks]; [intros [= <-]; reflexivity|]. unfold signer_chunk.
  destruct (hash_chunk (sg_body_hasher E s) c) as [[st bh]|]; cbn [bind]; [|discriminate]. intros H. apply IH in H. exact H.
Qed.

Theorem signing_build : forall order headers rs chunks clock, Forall fits rs ->
  sign_message E' order headers (map moved rs) chunks clock = sign_message E order headers rs chunks clock.
Proof.
  intros order headers rs chunks clock F. unfold sign_message, prepare_signing.
  destruct (negb (existsb (fun f => name_eqb (fst f) (lit "From")) headers)); [reflexivity|].
  rewrite moved_loop by exact F. destruct (prepare_loop E 0 (bhb_new false) rs) as [[b|e]|]; cbn [bind]; try reflexivity.
  replace (is_nil (map moved rs)) with (is_nil rs) by (destruct rs; reflexivity). destruct (is_nil rs); [reflexivity|]. cbn [bind].
  set (s := mkSigner E rs headers (bhb_build b (order (bhb_registrations b)))).
  change (mkSigner E' (map moved rs) headers (bhb_build b (order (bhb_registrations b)))) with (moved_signer s).
  rewrite moved_chunks. destruct (signer_chunks E s chunks) as [t|] eqn:Q; cbn [bind]; [|reflexivity].
  apply chunks_tasks in Q. unfold sign. change (sg_body_hasher E' (moved_signer t)) with (sg_body_hasher E t). cbn [env_crypto SpecBuild.build].
  destruct (bh_finish (hash_fn C) (sg_body_hasher E t)) as [res|]; cbn [bind]; [|reflexivity].
  change (Sign.sg_headers E' (moved_signer t)) with (Sign.sg_headers E t). change (sg_tasks E' (moved_signer t)) with (map moved (sg_tasks E t)).
  rewrite moved_tasks; [reflexivity|]. rewrite Q. exact F.
Qed.

(** a request that does not fit the smaller one *)
Lemma loop_cases : m <= m' -> forall rs i b, Forall fits rs
  \/ prepare_loop E i b rs = Val (Err ReqOverflow)
  \/ ((forall b', prepare_loop E i b rs <> Val (Ok b')) /\ prepare_loop E' i b (map moved rs) = prepare_loop E i b rs).
Proof.
  intros Le rs. induction rs as [|r rs IH]; intros i b; [left; constructor|]. cbn [map prepare_loop]. rewrite moved_valid.
  destruct (Nat.leb 10 i); [right; right; split; [discriminate|reflexivity]|].
  destruct (validate_request E r) as [[e|]|]; cbn [bind]; [right; right; split; [discriminate|reflexivity]| |right; right; split; [discriminate|reflexivity]].
  change (r_body_length E' (moved r)) with (r_body_length E r). cbn [env_usize_max SpecBuild.build].
  assert (fits r \/ bl_to_usize m (r_body_length E r) = None) as [F|N].
  { unfold fits, bl_to_usize. destruct (r_body_length E r) as [| |n]; [left; discriminate|left; discriminate|].
    destruct (n <=? m) eqn:X; [left|right; reflexivity]. intros n' [= <-]. lia. }
  - rewrite (usize_both _ F). destruct (bl_to_usize m (r_body_length E r)) as [len|]; [|right; left; reflexivity].
    destruct (IH (S i) (bhb_register b (request_key E len r))) as [Fs|[X|X]]; [left; constructor; assumption|right; left; exact X|right; right; exact X].
  - right. left. rewrite N. reflexivity.
Qed.

Theorem signing_widths : m <= m' -> forall order headers rs chunks clock,
  sign_message E' order headers (map moved rs) chunks clock = sign_message E order headers rs chunks clock
  \/ sign_message E order headers rs chunks clock = Val (Err ReqOverflow)
     /\ exists r n, In r rs /\ r_body_length E r = ExactLen n /\ m < n.
Proof.
  intros Le order headers rs chunks clock.
  assert (Forall fits rs \/ exists r n, In r rs /\ r_body_length E r = ExactLen n /\ m < n) as [F|Ex].
  { induction rs as [|r rs IH]; [left; constructor|]. destruct IH as [F|(r1 & n & X & Y)]; [|right; exists r1, n; split; [right; exact X|exact Y]].
    destruct (r_body_length E r) as [| |n] eqn:Q; [left; constructor; [|exact F]; intros n X; congruence|left; constructor; [|exact F]; intros n X; congruence|].
    destruct (N.le_gt_cases n m); [left; constructor; [|exact F]; intros n' X; rewrite Q in X; injection X as <-; lia|right; exists r, n; split; [left; reflexivity|auto]]. }
  - left. apply signing_build. exact F.
  - destruct (loop_cases Le rs 0%nat (bhb_new false)) as [F|[X|[X Y]]].
    + left. apply signing_build. exact F.
    + unfold sign_message, prepare_signing. destruct (negb (existsb (fun f => name_eqb (fst f) (lit "From")) headers)); [left; reflexivity|].
      right. rewrite X. split; [reflexivity|exact Ex].
    + left. unfold sign_message, prepare_signing. destruct (negb (existsb (fun f => name_eqb (fst f) (lit "From")) headers)); [reflexivity|].
      rewrite Y. destruct (prepare_loop E 0 (bhb_new false) rs) as [[b|e]|]; [exfalso; exact (X b eq_refl)|reflexivity|reflexivity].
Qed.

Lemma output_moved : forall headers chunks clock j r o, m <= m' ->
  signed_output E headers chunks clock j r o -> signed_output E' headers chunks clock j (moved r) o.
Proof.
  intros headers chunks clock j r o Le (Ct & Hh & order & rs & results & T & O & Sg & N1 & N2).
  split; [exact Ct|]. split; [exact Hh|]. exists order, (map moved rs), results.
  split. { apply Forall_map. eapply Forall_impl; [|exact T]. intros x X. exact X. }
  split; [exact O|]. split; [|split; [rewrite nth_error_map, N1; reflexivity|exact N2]]. rewrite signing_build; [exact Sg|].
  destruct (signing_spec E order headers rs chunks clock Ct T Hh O) as (e & F & X). rewrite Sg in X. destruct e as [e|]; [discriminate X|].
  apply checks_none in F as (_ & _ & F). eapply Forall_impl; [|exact F]. intros x Fx n Hn.
  apply first_of_none_iff in Fx. apply Forall_inv_tail in Fx. do 7 apply Forall_inv_tail in Fx. apply Forall_inv in Fx. cbn [fst env_usize_max SpecBuild.build] in Fx.
  assert (n <= m) as Ln by (apply N.le_ngt; intros Lt; apply Fx; exists n; auto). lia.
Qed.

Lemma readable_moved : forall headers chunks clock j r o, m <= m' -> (r_algorithm E r = RsaSha1 -> pre' = true) ->
  readable_output E headers chunks clock j r o -> readable_output E' headers chunks clock j (moved r) o.
Proof.
  intros headers chunks clock j r o Le A (So & [R1 R2 R3 R4 R5] & T & Z & X).
  split; [apply output_moved; assumption|]. split; [constructor; assumption|]. split; [exact T|]. split; [exact Z|exact X].
Qed.

End Signing.

Section Interop.
Variables (idna : Idna) (C : Crypto).
Notation build := (build idna C).

Lemma record_for_build : forall pre m m0 pre' m' r config txt,
  record_for (build pre' m') (moved idna C pre m pre' m' r) config txt -> record_for (build pre' m0) (moved idna C pre m pre' m0 r) config txt.
Proof.
  intros pre m m0 pre' m' r config txt (s & k & key & H1 & H2 & H3 & H4 & H5 & H6 & H7 & H8 & H9).
  exists s, k, key. split; [exact H1|]. split; [exact H2|]. split; [exact H3|]. split; [exact H4|]. split; [exact H5|]. split; [exact H6|].
  split; [eapply key_in_build; exact H7|]. split; [exact H8|exact H9].
Qed.

Theorem interop : forall pre m pre' m' w config headers above below chunks chunks' clock j r o zone rs res,
  idna_ok idna -> crypto_nonempty C -> readable_output (build pre m) headers chunks clock j r o ->
  (r_algorithm (build pre m) r = RsaSha1 -> pre' = true) ->
  let E' := build pre' m' in
  let r' := moved idna C pre m pre' m' r in
  let extra := above ++ signature_field o :: below in
  not_oversigned (s_signed_headers (so_signature o)) headers extra -> concat chunks' = concat chunks ->
  signature_good E' (extra ++ headers) config (w_clock w (length above)) (so_signature o) ->
  content_covered E' r' config (concat chunks) -> key_published E' r' config (fun p => zone (key_name p)) ->
  world_ok w -> steady (w_resolver w) zone -> header_fields (extra ++ headers) ->
  verify_message E' w (extra ++ headers) config chunks' = Val (Some rs) ->
  result_for config (extra ++ headers) rs (length above) (so_header_name o) (as_bytes (so_header_value o)) res ->
  vr_status res = Success.
Proof.
  intros pre m pre' m' w config headers above below chunks chunks' clock j r o zone rs res IO NE RO A E' r' extra OV Eb G Cov
    (d & sl & txts & txt & K1 & K2 & K3 & K4 & K5) W St Hh M RF.
  set (m0 := N.max m m').
  assert (m <= m0 /\ m' <= m0) as [L1 L2] by (unfold m0; lia). clearbody m0.
  destruct (verify_message_cases E' w (extra ++ headers) config chunks' W Hh) as [[_ X]|(Ne & _)]; [congruence|].
  destruct (verify_message_cases (build pre' m0) w (extra ++ headers) config chunks' W Hh) as [[X _]|(_ & rs0 & M0 & I0)]; [contradiction|].
  destruct RF as (k & RF1 & RF2).
  assert (exists res0, nth_error rs0 k = Some res0) as (res0 & N0).
  { destruct (nth_error rs0 k) as [x|] eqn:X; [eauto|]. exfalso. apply nth_error_None in X. apply (f_equal (@length _)) in I0. rewrite !map_length in I0.
    assert (nth_error (examined config (extra ++ headers)) k <> None) as Y by congruence. apply nth_error_Some in Y. lia. }
  assert (result_for config (extra ++ headers) rs0 (length above) (so_header_name o) (as_bytes (so_header_value o)) res0) as RF0 by (exists k; auto).
  destruct (end_to_end (build pre' m0) w config headers above below chunks chunks' clock j (moved idna C pre m pre' m0 r) o (fun p => zone (key_name p)) rs0 res0)
    as (S0 & _ & sig' & V0 & Wr).
  - exact IO.
  - exact NE.
  - apply readable_moved; assumption.
  - exact OV.
  - exact Eb.
  - destruct G as (G1 & G2 & G3 & G4). split; [exact G1|]. split; [exact G2|]. split; [|exact G4]. intros l Hl. specialize (G3 l Hl). change (l <= m') in G3. cbn [env_usize_max SpecBuild.build]. lia.
  - exact Cov.
  - exists d, sl, txts, txt. split; [exact K1|]. split; [exact K2|]. split; [exact K3|]. split; [exact K4|]. eapply record_for_build. exact K5.
  - apply steady_evaluation; assumption.
  - exact RF0.
  - destruct (width_exact idna C pre' m' m0 w (extra ++ headers) config chunks' zone rs rs0 (length above) (so_header_name o) (as_bytes (so_header_value o)) res res0
      L2 W St Hh M (ex_intro _ k (conj RF1 RF2)) M0 RF0) as (Q & [->|(sig & l & X1 & X2 & X3 & _)] & _); [exact S0|].
    exfalso. rewrite X1 in Q. rewrite V0 in Q. injection Q as <-. destruct G as (_ & _ & G3 & _).
    assert (s_body_length sig = s_body_length (so_signature o)) as Y by apply Wr. rewrite X2 in Y. symmetry in Y. specialize (G3 l Y). change (l <= m') in G3. lia.
Qed.

End Interop.
