(** Proofs about configurations that are less strict than others. *)

From Coq Require Import String List.
From Verif Require Import Base Utf8 Canon BodyHash Header Domain Signature KeyRecord Crypto TagList Verify
  SpecText SpecCanon SpecHash SpecHeader SpecTag SpecDomain SpecSig SpecRecord SpecSign SpecVerify SpecLoose
  Lib HeaderCanonProofs SignProofs VerifyProofs VerifyKeys VerifyRun VerifyFacts PolicyProofs DefaultProofs.
Import ListNotations.
Open Scope N_scope.

Section WithEnv.
Variable E : Env.
Notation C := (env_crypto E).

Lemma looser_good : forall headers c c' now sig, looser c c' ->
  signature_good E headers c now sig -> signature_good E headers c' now sig.
Proof.
  intros headers c c' now sig (_ & Lr & Lf & _ & Ls & _ & Le & Lt & Lo & Lx) (G1 & G2 & G3 & G4 & G5 & G6).
  unfold signature_good. cbv zeta in *. assert (seconds c' now = seconds c now) as -> by (unfold seconds; rewrite Lx; reflexivity).
  split; [|split; [|split; [exact G3|split; [|split]]]].
  - intros n' H. destruct (Lr n' H) as (n & Hn & S). destruct (G1 n Hn) as (m & Hm & S'). exists m. split; [exact Hm|].
    unfold same_name in *. congruence.
  - intros n' H. destruct (Lf n' H) as (n & Hn & S). specialize (G2 n Hn). apply same_nameb_iff in S.
    rewrite <- !(occ_same _ n n' S). exact G2.
  - intros A x X. destruct (cf_allow_expired c) eqn:B; [rewrite (Le eq_refl) in A; discriminate A|]. specialize (G4 eq_refl x X). lia.
  - intros A x X. destruct (cf_allow_timestamp_in_future c) eqn:B; [rewrite (Lt eq_refl) in A; discriminate A|]. specialize (G5 eq_refl x X). lia.
  - intros A. destruct (cf_allow_sha1 c) eqn:B; [rewrite (Ls eq_refl) in A; discriminate A|]. exact (G6 eq_refl).
Qed.

Lemma looser_accepts : forall headers c c' sig name s txt k, looser c c' ->
  record_accepts E headers c sig name s txt k -> record_accepts E headers c' sig name s txt k.
Proof.
  intros headers c c' sig name s txt k (_ & _ & _ & Lb & _) (t & key & H1 & H2 & H3 & H4 & H5 & H6 & H7 & H8 & H9). exists t, key.
  repeat (split; [assumption|]). split; [|exact H9]. intros pk X. specialize (H8 pk X). lia.
Qed.

Lemma looser_body : forall c c' sig body, looser c c' -> body_matches E c sig body -> body_matches E c' sig body.
Proof.
  intros c c' sig body (_ & _ & _ & _ & _ & Lu & _) B. unfold body_matches in *. cbv zeta in *.
  destruct (s_body_length sig) as [l|]; [|exact B]. destruct B as (x & y & B1 & B2 & B3 & B4). exists x, y. repeat (split; [assumption|]). auto.
Qed.

(** a record is judged by the least size of keys only *)
Lemma bits_outcome : forall headers c c' sig name s txt r e, cf_min_key_bits c = cf_min_key_bits c' ->
  record_outcome E headers c sig name s txt r e -> record_outcome E headers c' sig name s txt r e.
Proof.
  intros headers c c' sig name s txt r e B H. destruct H as [H|t x H1 H2|t x y H1 H2 H3].
  - apply ro_not_text. exact H.
  - eapply ro_format; eassumption.
  - eapply ro_record; [exact H1|exact H2|]. unfold key_checks in *. rewrite <- B. exact H3.
Qed.

Lemma bits_outcomes : forall headers c c' sig name s txts r e, cf_min_key_bits c = cf_min_key_bits c' ->
  records_outcome E headers c sig name s txts r e -> records_outcome E headers c' sig name s txts r e.
Proof.
  intros headers c c' sig name s txts r e B H.
  induction H; [eapply rs_success|eapply rs_last|eapply rs_more]; eauto using bits_outcome.
Qed.

Lemma looser_verdict : forall answer headers c c' now body i name value r r', looser c c' -> header_fields headers -> field_name name ->
  verdict E answer headers c now body i name value r -> verdict E answer headers c' now body i name value r' ->
  vr_status r = Success ->
  vr_status r' = Success /\ vr_signature r' = vr_signature r /\ (cf_min_key_bits c = cf_min_key_bits c' -> r' = r).
Proof.
  intros answer headers c c' now body i name value r r' L Hh Hn V V' S.
  assert (vr_status r' = Success) as S'.
  { apply (verdict_success _ _ _ _ _ _ _ _ _ _ Hh Hn V'). apply (verdict_success _ _ _ _ _ _ _ _ _ _ Hh Hn V) in S.
    destruct S as (sig & s & p & txts & txt & k & H1 & H2 & H3 & H4 & H5 & H6 & H7). exists sig, s, p, txts, txt, k.
    split; [exact H1|]. split; [eapply looser_good; eassumption|]. split; [exact H3|]. split; [exact H4|]. split; [exact H5|].
    split; [eapply looser_accepts; eassumption|eapply looser_body; eassumption]. }
  split; [exact S'|]. split.
  - destruct (verdict_success_record _ _ _ _ _ _ _ _ _ _ V S) as (s & sig & _ & _ & _ & _ & H1 & _ & -> & _).
    destruct (verdict_success_record _ _ _ _ _ _ _ _ _ _ V' S') as (s' & sig' & _ & _ & _ & _ & H1' & _ & -> & _).
    f_equal. destruct (signature_read_det _ _ _ _ _ _ H1 H1') as [_ X]. congruence.
  - intros B. eapply verdict_det; [exact V'|]. pose proof S as S2.
    destruct V as [s e V|s sig e V1 V2|s sig p k e V1 V2 V3 V4|s sig p V1 V2 V3|s sig p txts k e V1 V2 V3 V4|s sig p txts k V1 V2 V3 V4]; cbn in S; try discriminate S.
    assert (body_status E c sig body = body_status E c' sig body) as ->.
    { rewrite S. symmetry. apply body_success. apply body_success in S. eapply looser_body; eassumption. }
    eapply vd_body; [|exact V2|exact V3|eapply bits_outcomes; eassumption].
    destruct V1 as [R F]. split; [exact R|]. apply signature_good_iff. apply signature_good_iff in F. eapply looser_good; eassumption.
Qed.

(** in the other direction *)
Lemma stricter_verdict : forall answer headers c c' now now' body i name value r r',
  verdict E answer headers c now body i name value r -> verdict E answer headers c' now' body i name value r' ->
  vr_status r' = Success ->
  cf_min_key_bits c = cf_min_key_bits c' \/ (forall p txts, answer p = Ok txts -> (length txts <= 1)%nat) ->
  vr_status r = Success \/ exists p, vr_status r = Failure (Policy p).
Proof.
  intros answer headers c c' now now' body i name value r r' V V' S Hb.
  destruct (verdict_success_record _ _ _ _ _ _ _ _ _ _ V' S) as (s & sig & txt & k & p & txts & R & G & _ & _ & P & A & I & K & B).
  assert (forall p', lookup_pair E sig p' -> p' = p) as Pd by (intros; eapply lookup_pair_det; eassumption).
  assert (forall s' x, signature_read E value s' x -> s' = s /\ x = Ok sig) as Rd.
  { intros s' x H. destruct (signature_read_det _ _ _ _ _ _ H R). auto. }
  destruct V as [s' e V|s' sig' e V1 V2|s' sig' p' k' e [V1 _] V2 V3 V4|s' sig' p' [V1 _] V2 V3|s' sig' p' txts' k' e [V1 _] V2 V3 V4|s' sig' p' txts' k' [V1 _] V2 V3 V4];
    cbn [vr_status];
    match goal with H : signature_read E value _ _ |- _ => destruct (Rd _ _ H) as [-> X]; try discriminate X; injection X as -> end;
    try (match goal with H : lookup_pair E sig _ |- _ => rewrite (Pd _ H) in *; clear H end).
  - right. destruct G as (_ & _ & G3 & _). unfold signature_checks in V2.
    repeat (apply first_of_cons_some in V2 as [[X1 X2]|[_ V2]]; [first [exists RequiredHeaderNotSigned; congruence
      |exists UnsignedHeaderOccurrence; congruence|exists SignatureExpired; congruence|exists TimestampInFuture; congruence
      |exists Sha1HashAlgorithm; congruence
      |exfalso; destruct X1 as (l & X3 & X4); specialize (G3 l X3); lia]|]).
    inversion V2.
  - congruence.
  - assert (txts = []) as -> by congruence. destruct I.
  - assert (txts' = txts) as -> by congruence. right. destruct Hb as [Hb|Hb].
    + exfalso. apply (bits_outcomes _ _ _ _ _ _ _ _ _ Hb) in V4.
      destruct (records_outcome_cases _ _ _ _ _ _ _ _ _ V4) as [[X _]|(e' & _ & F & _)]; [discriminate X|].
      rewrite Forall_forall in F. destruct (F txt I) as (r1 & e1 & O). apply accepts_iff in K.
      destruct (record_outcome_det _ _ _ _ _ _ _ _ _ _ _ O K) as [_ X]. discriminate X.
    + specialize (Hb p txts A). destruct txts as [|t [|t' txts]]; [destruct I| |cbn in Hb; lia]. cbn in I. destruct I as [<-|[]].
      assert (record_outcome E headers c sig name s t k' (Some e)) as O by (cbn in V4; inversion V4; subst; [assumption|congruence]).
      apply accepts_iff in K. inversion K as [| |y x z K1 K2 K3]; subst.
      inversion O as [O1|y' x' O1 O2|y' x' z' O1 O2 O3]; subst;
        pose proof (record_text_det _ _ _ K1 O1) as X; try discriminate X; injection X as <-; [congruence|].
      assert (x' = k) as -> by congruence. exists KeyTooSmall. f_equal. rewrite first_of_none_iff in K3. unfold key_checks in *. cbv zeta in *.
      rewrite !Forall_cons_iff in K3. cbn [fst] in K3. destruct K3 as (F1 & F2 & F3 & F4 & F5 & F6 & F7 & F8 & _).
      repeat (apply first_of_cons_some in O3 as [[X1 X2]|[_ O3]]; [first [contradiction|congruence]|]). inversion O3.
  - destruct (body_status E c sig body) as [|e] eqn:X; [left; reflexivity|]. right. exists UnsignedContent. f_equal. apply body_success in B.
    unfold body_status, expected_result in *. cbv zeta in *. destruct (s_body_length sig) as [l|].
    + destruct (_ <? l); [discriminate B|]. destruct (cf_forbid_unsigned_content c && _); [congruence|].
      destruct (cf_forbid_unsigned_content c' && _); [discriminate B|].
      destruct (leqb _ (s_body_hash sig)); congruence.
    + destruct (leqb _ (s_body_hash sig)); congruence.
Qed.

(** for messages *)
Lemma looser_message : forall w w' headers c c' chunks chunks' zone rs i name value r, looser c c' -> world_ok w -> world_ok w' -> header_fields headers ->
  steady (w_resolver w) zone -> steady (w_resolver w') zone -> w_clock w i = w_clock w' i -> concat chunks = concat chunks' ->
  verify_message E w headers c chunks = Val (Some rs) -> result_for c headers rs i name value r ->
  exists rs' r', verify_message E w' headers c' chunks' = Val (Some rs') /\ result_for c' headers rs' i name value r'
    /\ field_name name
    /\ verdict E (fun p => zone (key_name p)) headers c (w_clock w i) (concat chunks) i name value r
    /\ verdict E (fun p => zone (key_name p)) headers c' (w_clock w i) (concat chunks) i name value r'.
Proof.
  intros w w' headers c c' chunks chunks' zone rs i name value r L W W' Hh S S' Hc Hb M R.
  pose proof (steady_evaluation _ _ _ _ _ _ _ W Hh S M) as Ev. destruct (evaluation_verdict _ _ _ _ _ _ _ _ _ _ _ Ev R) as (V & Hn & _).
  destruct R as (k & K1 & K2).
  assert (nth_error (examined c' headers) k = Some (i, (name, value))) as K1'.
  { unfold examined in *. destruct L as (L & _).
    assert (k < length (firstn (cf_max_signatures c) (signature_fields 0 headers)))%nat as Lk by (apply nth_error_Some; congruence).
    rewrite firstn_length in Lk. rewrite nth_error_firstn in K1 |- * by lia. exact K1. }
  destruct (verify_message_cases E w' headers c' chunks' W' Hh) as [[X _]|(_ & rs' & M' & I)].
  { rewrite X in K1'. destruct k; discriminate K1'. }
  assert (exists r', nth_error rs' k = Some r') as (r' & K2').
  { destruct (nth_error rs' k) eqn:Y; [eauto|]. apply nth_error_None in Y. apply (f_equal (@length _)) in I. rewrite !map_length in I.
    assert (k < length (examined c' headers))%nat by (apply nth_error_Some; congruence). lia. }
  assert (result_for c' headers rs' i name value r') as R' by (exists k; auto).
  exists rs', r'. split; [exact M'|]. split; [exact R'|]. split; [exact Hn|]. split; [exact V|].
  pose proof (steady_evaluation _ _ _ _ _ _ _ W' Hh S' M') as Ev'. destruct (evaluation_verdict _ _ _ _ _ _ _ _ _ _ _ Ev' R') as (V' & _).
  rewrite Hc, Hb. exact V'.
Qed.
End WithEnv.
