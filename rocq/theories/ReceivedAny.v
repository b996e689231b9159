(** Proofs: what becomes of a message signed in any way, however it is received. *)

From Coq Require Import String List Lia NArith Permutation.
From Verif Require Import Base Utf8 Canon BodyHash Header Domain Signature KeyRecord Crypto TagList Format Sign Verify
  SpecText SpecCanon SpecHash SpecHeader SpecTag SpecDomain SpecSig SpecRecord SpecFormat SpecSign SpecOutput SpecVerify SpecEnd SpecDkim SpecCause SpecRsa SpecEd SpecReal SpecUnique
  SpecTransit SpecAuthor SpecChange SpecReceived SpecReceivedAny
  Concrete HeaderCanonProofs SigProofs SignProofs VerifyProofs VerifyKeys VerifyRun VerifyFacts WidthProofs OutputProofs OutputParse OutputChars EndProofs DkimProofs RsaProofs EdSpecProofs EdEndProofs ConcreteProofs RealProofs
  UniqueEnd AuthorProofs ChangeProofs ReceivedProofs Lib.
Import ListNotations.
Open Scope N_scope.

Lemma first_none : forall (P : Prop) (x : VerificationError) l, ~ P -> first_of l None -> first_of ((P, x) :: l) None.
Proof. intros P x l N H. apply first_of_none_iff. constructor; [exact N|]. apply first_of_none_iff. exact H. Qed.

Lemma first_of_app : forall (l1 l2 : list (Prop * VerificationError)) e, first_of l1 None -> first_of l2 e -> first_of (l1 ++ l2) e.
Proof.
  induction l1 as [|[P x] l1 IH]; intros l2 e H1 H2; [exact H2|]. apply first_of_cons_none in H1 as (N & H1). cbn [app]. destruct e as [e|].
  - apply first_of_cons_some. right. split; [exact N|apply IH; assumption].
  - apply first_none; [exact N|apply IH; assumption].
Qed.

Lemma first_of_app_some : forall (l1 l2 : list (Prop * VerificationError)) e, first_of l1 (Some e) -> first_of (l1 ++ l2) (Some e).
Proof.
  induction l1 as [|[P x] l1 IH]; intros l2 e H1; [inversion H1|]. cbn [app]. apply first_of_cons_some in H1 as [H1|(N & H1)]; apply first_of_cons_some; [left; exact H1|].
  right. split; [exact N|apply IH; assumption].
Qed.

(** a configuration that differs in making no demands on the signature itself *)
Definition lenient (c : Config) : Config :=
  mkConfig (cf_lookup_timeout c) (cf_max_signatures c) [] [] (cf_min_key_bits c) true false true true (cf_time_tolerance c) (cf_fixed_system_time c).

Section WithEnv.
Variable E : Env.
Notation C := (env_crypto E).
Notation idna := (env_idna E).

Lemma lenient_result : forall config zone now headers body name value r body', result_of E config zone now headers body name value r ->
  exists r', result_of E (lenient config) zone now headers body' name value r'.
Proof.
  intros config zone now headers body name value r body' (w & chunks & rs & i & W & Z & F & _ & _ & (k & K & _) & <-).
  destruct (result_given E (lenient config) zone w headers [body'] k i name value W Z F K) as (r' & R'). exists r'. cbn [concat] in R'. rewrite app_nil_r in R'. exact R'.
Qed.

Lemma lenient_good : forall headers config now sig, (forall l, s_body_length sig = Some l -> l <= env_usize_max E) ->
  signature_good E headers (lenient config) now sig.
Proof.
  intros headers config now sig L. unfold signature_good, lenient. cbn. split; [intros ? []|]. split; [intros ? []|]. split; [exact L|].
  split; [discriminate|]. split; discriminate.
Qed.

Lemma body_outcome : forall config sig body body', body_matches E (lenient config) sig body ->
  exists e, first_of (body_checks E config sig body body') e /\ body_status E config sig body' = status_of e.
Proof.
  intros config sig body body' M. pose proof (kept_matches E (lenient config) sig body body' M) as Km. pose proof (body_success E (lenient config) sig body') as Bs.
  unfold body_checks, body_kept, body_matches, body_status, expected_result in *. cbv zeta in *. cbn [lenient cf_forbid_unsigned_content] in *.
  destruct (s_body_length sig) as [l|].
  - set (cb := canonical_body (c_body (s_canonicalization sig)) body') in *. cbn [andb] in Bs.
    destruct (N.of_nat (length cb) <? l) eqn:A.
    + exists (Some VInsufficientContent). split; [|reflexivity]. apply first_of_cons_some. left. split; [apply N.ltb_lt; exact A|reflexivity].
    + apply N.ltb_ge in A. destruct (cf_forbid_unsigned_content config && (l <? N.of_nat (length cb)))%bool eqn:B.
      * apply andb_prop in B as (B1 & B2). apply N.ltb_lt in B2. exists (Some (Policy UnsignedContent)). split; [|reflexivity].
        apply first_of_cons_some. right. split; [lia|]. apply first_of_cons_some. left. auto.
      * assert (~ (cf_forbid_unsigned_content config = true /\ l < N.of_nat (length cb))) as B'.
        { intros (B1 & B2). rewrite B1 in B. cbn [andb] in B. apply N.ltb_ge in B. lia. }
        destruct (leqb _ (s_body_hash sig)) eqn:D.
        -- exists None. split; [|reflexivity]. apply first_none; [lia|]. apply first_none; [exact B'|].
           apply first_none; [|constructor]. intros N. apply N. apply Km. apply Bs. reflexivity.
        -- exists (Some BodyHashMismatch). split; [|reflexivity]. apply first_of_cons_some. right. split; [lia|]. apply first_of_cons_some. right. split; [exact B'|].
           apply first_of_cons_some. left. split; [|reflexivity]. intros Y.
           assert (Failure BodyHashMismatch = Success) as X; [|discriminate X]. apply Bs. apply Km. split; [exact A|]. split; [discriminate|exact Y].
  - destruct (leqb _ (s_body_hash sig)) eqn:D.
    + exists None. split; [|reflexivity]. apply first_none; [|constructor]. intros N. apply N. apply Km. apply Bs. reflexivity.
    + exists (Some BodyHashMismatch). split; [|reflexivity]. apply first_of_cons_some. left. split; [|reflexivity]. intros Y.
      assert (Failure BodyHashMismatch = Success) as X; [|discriminate X]. apply Bs. apply Km. exact Y.
Qed.

Section Any.
Variables (r : SignRequest E) (headers : list HeaderField) (chunks : list (list byte)) (clock : nat -> N) (j : nat)
  (o : SigningOutput) (config : Config) (zone : str -> IoResult (list (IoResult (list byte)))).
Notation value := (as_bytes (so_header_value o)).
Notation field := (signature_field o).
Hypothesis IO : idna_ok idna.
Hypothesis NE : crypto_nonempty C.
Hypothesis RO : readable_output E headers chunks clock j r o.
Hypothesis OV : not_oversigned (s_signed_headers (so_signature o)) headers [field].
Hypothesis K : key_published E r config (fun p => zone (key_name p)).
Hypothesis One : sole_record E zone (r_domain E r) (r_selector E r).

Lemma any_signature : exists sig, signature_read E value (so_header_value o) (Ok sig) /\ written_signature idna (r_format E r) (so_signature o) sig
  /\ s_algorithm sig = r_algorithm E r
  /\ forall dn sn, idna_to_ascii idna (r_domain E r) = Some dn -> idna_to_ascii idna (r_selector E r) = Some sn -> lookup_pair E sig (dn, sn).
Proof.
  destruct RO as (HO & HR & HT & HZ & HX). destruct (signed_output_of _ _ _ _ _ _ _ HO) as (pre & post & n & b64 & O).
  pose proof (output_scalar _ _ _ _ _ _ _ _ _ _ _ _ IO O HR HX) as Sc.
  destruct (output_parses E _ _ _ _ _ _ _ _ _ _ _ IO NE O HR HT HZ) as (sig & P & W). exists sig.
  split; [apply sgr_text; [exact Sc|reflexivity|exact P]|]. split; [exact W|].
  destruct W as (W1 & _ & _ & _ & W5 & _ & _ & _ & W9 & _).
  destruct (request_parts _ _ _ _ _ _ _ HO) as (hashed & names & _ & _ & _ & Qa & _ & _ & Qd & Qs & _ & _ & _ & (Td & Ts & _)).
  split; [congruence|]. rewrite Qd in W5. rewrite Qs in W9. intros dn sn D S. split; cbn [fst snd].
  - rewrite <- D. eapply (written_domain _ _ _ _ _ IO Td). exact W5.
  - rewrite <- S. eapply (written_domain _ _ _ _ _ IO Ts). exact W9.
Qed.

Lemma any_pair : forall sig, signature_read E value (so_header_value o) (Ok sig) ->
  exists dn sn txt, idna_to_ascii idna (r_domain E r) = Some dn /\ idna_to_ascii idna (r_selector E r) = Some sn
    /\ lookup_pair E sig (dn, sn) /\ zone (key_name (dn, sn)) = Ok [txt].
Proof.
  intros sig SR. destruct any_signature as (sig0 & SR0 & _ & _ & L). destruct (signature_read_det _ _ _ _ _ _ SR SR0) as (_ & X). injection X as <-.
  destruct K as (dn & sn & txts & txt & D & Sl & _ & _). destruct (One dn sn D Sl) as (txt1 & Z). exists dn, sn, txt1. auto.
Qed.

Lemma any_success : forall now sig, signature_read E value (so_header_value o) (Ok sig) -> (forall l, s_body_length sig = Some l -> l <= env_usize_max E) ->
  cf_max_signatures config <> 0%nat ->
  exists res, result_of E (lenient config) zone now (field :: headers) (concat chunks) (so_header_name o) value res /\ vr_status res = Success
    /\ vr_signature res = Some sig.
Proof.
  intros now sig SR L Mx. destruct any_signature as (sig0 & SR0 & W & _). destruct (signature_read_det _ _ _ _ _ _ SR SR0) as (_ & X). injection X as <-.
  set (w := mkWorld (mkResolver (fun _ => zone) (fun _ _ => 0)) (fun _ => now) (fun l => l) (fun l => l)).
  assert (world_ok w) as Wo by (split; intros l; apply Permutation_refl).
  assert (steady (w_resolver w) zone) as S by (intros ? ?; reflexivity).
  destruct (field_named E _ _ _ _ _ _ IO RO) as [Fn Ff].
  assert (header_fields (field :: headers)) as Hf by (inversion Ff; constructor; [assumption|apply (proj1 (proj2 (proj1 RO)))]).
  assert (nth_error (examined (lenient config) (field :: headers)) 0 = Some (0%nat, field)) as Ex.
  { unfold examined. cbn [lenient cf_max_signatures]. destruct (cf_max_signatures config); [contradiction|]. cbn [signature_fields signature_field fst].
    apply same_nameb_iff in Fn. rewrite Fn. reflexivity. }
  destruct (verify_message_cases E w _ (lenient config) chunks Wo Hf) as [[X _]|(_ & rs & V & Ln)]; [rewrite X in Ex; discriminate Ex|].
  pose proof (steady_evaluation _ _ _ _ _ _ _ Wo Hf S V) as Ev.
  assert (exists res, nth_error rs 0 = Some res) as (res & Kr).
  { destruct rs as [|res rs]; [|eexists; reflexivity]. destruct (examined (lenient config) (field :: headers)); [discriminate Ex|discriminate Ln]. }
  assert (result_for (lenient config) (field :: headers) rs 0 (so_header_name o) value res) as Rf by (exists 0%nat; split; [exact Ex|exact Kr]).
  exists res. split. { exists w, chunks, rs, 0%nat. split; [exact Wo|]. split; [exact S|]. split; [exact Hf|]. split; [reflexivity|]. split; [exact V|]. split; [exact Rf|reflexivity]. }
  assert (signature_good E (field :: headers) (lenient config) now (so_signature o)) as G.
  { apply lenient_good. destruct W as (_ & _ & _ & _ & _ & _ & _ & W8 & _). rewrite <- W8. exact L. }
  destruct (end_to_end E w (lenient config) headers [] [] chunks chunks clock j r o (fun p => zone (key_name p)) rs res IO NE RO OV eq_refl G
    ltac:(intros F; discriminate F) K Ev Rf) as (Su & _).
  split; [exact Su|].
  destruct (evaluation_verdict _ _ _ _ _ _ _ _ _ _ _ Ev Rf) as (Vd & _).
  destruct (verdict_success_record _ _ _ _ _ _ _ _ _ _ Vd Su) as (s1 & sig1 & _ & _ & _ & _ & SR1 & _ & Sg1 & _).
  destruct (signature_read_det _ _ _ _ _ _ SR SR1) as (_ & X). injection X as <-. exact Sg1.
Qed.

Theorem any_received : forall now headers' body' name' r' sig (Q : Prop), signature_read E value (so_header_value o) (Ok sig) ->
  result_of E config zone now headers' body' name' value r' ->
  (forall res, result_of E (lenient config) zone now (field :: headers) (concat chunks) (so_header_name o) value res -> vr_status res = Success ->
   vr_signature res = Some sig ->
   forall r'', result_of E (lenient config) zone now headers' (concat chunks) name' value r'' ->
   (vr_status r'' = Success <-> protected_signed (lenient config) sig headers' /\ Q /\ body_kept E (lenient config) sig (concat chunks) (concat chunks))) ->
  exists e, first_of (all_checks E config now sig headers' Q (concat chunks) body') e
    /\ vr_status r' = status_of e /\ vr_signature r' = Some sig.
Proof.
  intros now headers' body' name' r' sig Q SR R' Ch.
  destruct (any_pair sig SR) as (dn & sn & txt & D & S & P & Z).
  assert (cf_max_signatures config <> 0%nat) as Mx.
  { destruct R' as (w & chunks' & rs & i & _ & _ & _ & _ & _ & (k & Kx & _) & _). intros X. unfold examined in Kx. rewrite X in Kx. destruct k; discriminate Kx. }
  destruct (result_verdict E _ _ _ _ _ _ _ _ R') as (i & V & _).
  assert (forall s', in_progress E headers' config now value s' sig -> s' = so_header_value o
    /\ exists r k r'', result_of E (lenient config) zone now (field :: headers) (concat chunks) (so_header_name o) value r /\ vr_status r = Success
       /\ record_accepts E (field :: headers) config sig (so_header_name o) (so_header_value o) txt k
       /\ body_matches E (lenient config) sig (concat chunks)
       /\ result_of E (lenient config) zone now headers' (concat chunks) name' value r''
       /\ in_progress E headers' (lenient config) now value (so_header_value o) sig
       /\ (vr_status r'' = Success <-> Q)) as Pr.
  { intros s' (SR' & G). destruct (signature_read_det _ _ _ _ _ _ SR SR') as (<- & _). split; [reflexivity|].
    apply signature_good_iff in G as (_ & _ & L & _).
    destruct (any_success now sig SR L Mx) as (r0 & R & Su & Sg).
    destruct (result_verdict E _ _ _ _ _ _ _ _ R) as (i0 & V0 & _).
    destruct (verdict_success_record _ _ _ _ _ _ _ _ _ _ V0 Su) as (s0 & sig1 & txt1 & k & p1 & txts & SR1 & _ & _ & _ & P1 & A & I & Ac & BM).
    destruct (signature_read_det _ _ _ _ _ _ SR SR1) as (<- & Y). injection Y as <-. pose proof (lookup_pair_det _ _ _ _ P P1) as <-.
    rewrite Z in A. injection A as <-. destruct I as [<-|[]].
    destruct (lenient_result _ _ _ _ _ _ _ _ (concat chunks) R') as (r'' & R''). exists r0, k, r''. split; [exact R|]. split; [exact Su|]. split; [exact Ac|]. split; [exact BM|].
    split; [exact R''|]. split; [split; [exact SR|apply signature_good_iff; apply lenient_good; exact L]|].
    rewrite (Ch r0 R Su Sg r'' R''). split; [tauto|]. intros HQ. split; [intros n []|]. split; [exact HQ|]. apply (kept_matches _ _ _ _ _ BM). exact BM. }
  unfold all_checks.
  inversion V as [s' e SR' E0|s' sig' e SR' G E0|s' sig' p' k e G P' A _ E0|s' sig' p' G P' A E0|s' sig' p' txts rk e G P' A O E0|s' sig' p' txts rk G P' A O E0].
  - destruct (signature_read_det _ _ _ _ _ _ SR SR') as (_ & Y). discriminate Y.
  - destruct (signature_read_det _ _ _ _ _ _ SR SR') as (_ & Y). injection Y as <-. exists (Some e). split; [|split; reflexivity].
    apply first_of_app_some. exact G.
  - destruct G as (SR' & _). destruct (signature_read_det _ _ _ _ _ _ SR SR') as (_ & Y). injection Y as <-. pose proof (lookup_pair_det _ _ _ _ P P') as <-. congruence.
  - destruct G as (SR' & _). destruct (signature_read_det _ _ _ _ _ _ SR SR') as (_ & Y). injection Y as <-. pose proof (lookup_pair_det _ _ _ _ P P') as <-. congruence.
  - pose proof G as (SR' & _). destruct (signature_read_det _ _ _ _ _ _ SR SR') as (_ & Y). injection Y as <-. pose proof (lookup_pair_det _ _ _ _ P P') as <-.
    rewrite Z in A. injection A as <-. destruct (Pr _ G) as (-> & r0 & k & r'' & R & Su & Ac & BM & R'' & G'' & Iff).
    assert (record_outcome E headers' config sig name' (so_header_value o) txt rk (Some e)) as O1.
    { inversion O as [|? ? ? Oo|? ? ? ? ? ? Nn]; [exact Oo|]. contradiction Nn. reflexivity. }
    destruct (other_outcome _ _ _ _ _ _ _ _ _ _ _ _ Ac O1) as (_ & ->).
    exists (Some (VerificationFailure CryptoVerificationFailure)). split; [|split; reflexivity].
    apply first_of_app; [exact (proj2 G)|]. apply first_of_cons_some. left. split; [|reflexivity]. intros HQ. apply Iff in HQ.
    destruct (result_verdict E _ _ _ _ _ _ _ _ R'') as (i'' & V'' & _).
    assert (records_outcome E headers' (lenient config) sig name' (so_header_value o) (consulted [txt]) rk (Some (VerificationFailure CryptoVerificationFailure))) as O2.
    { apply rs_last. inversion O1 as [|? ? ? ? E1|t1 k1 e1 T1 T2 F]; subst; try discriminate. eapply ro_record; eassumption. }
    rewrite (verdict_det _ _ _ _ _ _ _ _ _ _ _ V'' (vd_key _ _ _ _ _ _ _ _ _ _ _ _ _ _ _ G'' P Z O2)) in HQ. discriminate HQ.
  - pose proof G as (SR' & _). destruct (signature_read_det _ _ _ _ _ _ SR SR') as (_ & Y). injection Y as <-. pose proof (lookup_pair_det _ _ _ _ P P') as <-.
    rewrite Z in A. injection A as <-. destruct (Pr _ G) as (-> & r0 & k & r'' & R & Su & Ac & BM & R'' & G'' & Iff).
    assert Q as HQ.
    { apply Iff. destruct (result_verdict E _ _ _ _ _ _ _ _ R'') as (i'' & V'' & _).
      assert (exists k', rk = Some k' /\ record_outcome E headers' config sig name' (so_header_value o) txt (Some k') None) as (k' & -> & O1).
      { inversion O as [? ? k' Oo| |? ? ? ? ? ? Nn]; [eauto|]. contradiction Nn. reflexivity. }
      assert (records_outcome E headers' (lenient config) sig name' (so_header_value o) (consulted [txt]) (Some k') None) as O2.
      { apply rs_success. apply accepts_iff. apply accepts_iff in O1. exact O1. }
      rewrite (verdict_det _ _ _ _ _ _ _ _ _ _ _ V'' (vd_body _ _ _ _ _ _ _ _ _ _ _ _ _ _ G'' P Z O2)). cbn [vr_status]. apply body_success. exact BM. }
    destruct (body_outcome config sig (concat chunks) body' BM) as (e & F & Bs). exists e. split; [|split; [exact Bs|reflexivity]].
    apply first_of_app; [exact (proj2 G)|]. destruct e as [e|]; [apply first_of_cons_some; right; split; [tauto|exact F]|apply first_none; [tauto|exact F]].
Qed.
End Any.
End WithEnv.

(** ** With the real cryptography *)

Section Real.
Variables (pre : bool) (m : N) (idna : Idna).
Notation E := (real_env pre m idna).

Theorem rsa_any : forall config r headers chunks clock j o zone,
  idna_ok idna -> readable_output E headers chunks clock j r o -> not_oversigned (s_signed_headers (so_signature o)) headers [signature_field o] ->
  key_published E r config (fun p => zone (key_name p)) -> sole_record E zone (r_domain E r) (r_selector E r) ->
  key_type_for (r_algorithm E r) = Rsa ->
  let value := as_bytes (so_header_value o) in
  exists sig, signature_read E value (so_header_value o) (Ok sig) /\ written_signature idna (r_format E r) (so_signature o) sig
    /\ forall now headers' body' name' r', result_of E config zone now headers' body' name' value r' ->
       exists data data' err,
         signed_text E (signature_field o :: headers) (so_header_name o) value sig data /\ signed_text E headers' name' value sig data'
         /\ first_of (all_checks E config now sig headers'
              (fields_kept sig (so_header_name o) name' (signature_field o :: headers) headers' \/ collision E (alg_hash (s_algorithm sig)) data data')
              (concat chunks) body') err
         /\ vr_status r' = status_of err /\ vr_signature r' = Some sig.
Proof.
  intros config r headers chunks clock j o zone Io RO OV K One Kt value.
  destruct (any_signature E r headers chunks clock j o Io real_nonempty RO) as (sig & SR & W & Al & _).
  exists sig. split; [exact SR|]. split; [exact W|]. intros now headers' body' name' r' R'.
  destruct (any_pair E r headers chunks clock j o config zone Io real_nonempty RO K One sig SR) as (dn & sn & txt & D1 & S1 & LP & Z).
  pose proof (text_given E (signature_field o :: headers) (so_header_name o) _ _ _ SR) as D.
  pose proof (text_given E headers' name' _ _ _ SR) as D'.
  set (data := hashed_header (signature_field o :: headers) sig (so_header_name o) (so_header_value o)) in *.
  set (data' := hashed_header headers' sig name' (so_header_value o)) in *. clearbody data data'.
  destruct (any_received E r headers chunks clock j o config zone Io real_nonempty RO OV K One now headers' body' name' r' sig
    (fields_kept sig (so_header_name o) name' (signature_field o :: headers) headers' \/ collision E (alg_hash (s_algorithm sig)) data data') SR R') as (err & F & S).
  - intros res R Su Sg r'' R''.
    assert (key_type_for (s_algorithm sig) = Rsa) as Kt1 by (rewrite Al; exact Kt).
    assert (one_record E zone sig) as One'. { intros p' LP'. pose proof (lookup_pair_det _ _ _ _ LP LP') as <-. exists txt. exact Z. }
    exact (rsa_change_one _ _ _ _ _ _ _ _ _ _ _ _ _ _ _ _ _ _ Io R Su Sg Kt1 One' R'' D D').
  - exists data, data', err. split; [exact D|]. split; [exact D'|]. split; [exact F|exact S].
Qed.

Theorem ed_any : forall config r headers chunks clock j o zone key public,
  idna_ok idna -> readable_output E headers chunks clock j r o -> not_oversigned (s_signed_headers (so_signature o)) headers [signature_field o] ->
  key_published E r config (fun p => zone (key_name p)) -> sole_record E zone (r_domain E r) (r_selector E r) ->
  ed_public_key sha512 key public -> ed_published E zone (r_domain E r) (r_selector E r) public ->
  let value := as_bytes (so_header_value o) in
  exists sig, signature_read E value (so_header_value o) (Ok sig) /\ written_signature idna (r_format E r) (so_signature o) sig
    /\ forall now headers' body' name' r', result_of E config zone now headers' body' name' value r' ->
       exists data data' err,
         signed_text E (signature_field o :: headers) (so_header_name o) value sig data /\ signed_text E headers' name' value sig data'
         /\ first_of (all_checks E config now sig headers'
              (fields_kept sig (so_header_name o) name' (signature_field o :: headers) headers'
               \/ ed_clash sha512 (hash_fn real_crypto (alg_hash (s_algorithm sig))) public (s_signature_data sig) data data')
              (concat chunks) body') err
         /\ vr_status r' = status_of err /\ vr_signature r' = Some sig.
Proof.
  intros config r headers chunks clock j o zone key public Io RO OV K One P Pub value.
  destruct (any_signature E r headers chunks clock j o Io real_nonempty RO) as (sig & SR & W & Al & _).
  exists sig. split; [exact SR|]. split; [exact W|]. intros now headers' body' name' r' R'.
  destruct (any_pair E r headers chunks clock j o config zone Io real_nonempty RO K One sig SR) as (dn & sn & txt & D1 & S1 & LP & Z).
  pose proof (text_given E (signature_field o :: headers) (so_header_name o) _ _ _ SR) as D.
  pose proof (text_given E headers' name' _ _ _ SR) as D'.
  set (data := hashed_header (signature_field o :: headers) sig (so_header_name o) (so_header_value o)) in *.
  set (data' := hashed_header headers' sig name' (so_header_value o)) in *. clearbody data data'.
  destruct (any_received E r headers chunks clock j o config zone Io real_nonempty RO OV K One now headers' body' name' r' sig
    (fields_kept sig (so_header_name o) name' (signature_field o :: headers) headers'
     \/ ed_clash sha512 (hash_fn real_crypto (alg_hash (s_algorithm sig))) public (s_signature_data sig) data data') SR R') as (err & F & S).
  - intros res R Su Sg r'' R''.
    destruct (result_verdict E _ _ _ _ _ _ _ _ R) as (i & V & _).
    destruct (verdict_success_record _ _ _ _ _ _ _ _ _ _ V Su) as (s1 & sig1 & txt1 & k & p1 & txts1 & SR1 & _ & Sg1 & Kr & LP1 & A1 & I1 & Ac1 & _).
    destruct (signature_read_det _ _ _ _ _ _ SR SR1) as (_ & X). injection X as <-. pose proof (lookup_pair_det _ _ _ _ LP LP1) as <-.
    rewrite Z in A1. injection A1 as <-. destruct I1 as [<-|[]].
    assert (ed_key_of k public) as Kp.
    { destruct Pub as (dn2 & sn2 & txts2 & txt2 & k2 & P1 & P2 & P3 & P4 & P5 & P6 & _ & P8).
      assert (dn2 = dn) as -> by congruence. assert (sn2 = sn) as -> by congruence.
      unfold key_name in Z. cbn [fst snd] in Z. change (lit ".") with [46] in P3. rewrite P3 in Z. injection Z as ->. destruct P4 as [<-|[]].
      apply CauseProofs.record_reads_iff in P5 as (t & Q1 & Q2). destruct Ac1 as (t' & key' & Q1' & Q2' & _).
      pose proof (record_text_det _ _ _ Q1 Q1') as Y. injection Y as <-. assert (k2 = k) as -> by congruence. split; assumption. }
    assert (one_record E zone sig) as One'. { intros p' LP'. pose proof (lookup_pair_det _ _ _ _ LP LP') as <-. exists txt. exact Z. }
    assert (exists a, ed_reading a public) as (a & En) by (destruct P as (? & ? & ? & a & _ & _ & _ & En); exists a; apply encoding_reading; exact En).
    pose proof (proj2 (hash_number (firstn 32 (s_signature_data sig) ++ public ++ hash_fn real_crypto (alg_hash (s_algorithm sig)) data) _) eq_refl) as X1.
    pose proof (proj2 (hash_number (firstn 32 (s_signature_data sig) ++ public ++ hash_fn real_crypto (alg_hash (s_algorithm sig)) data') _) eq_refl) as X2.
    pose proof (ed_change_private _ _ _ _ _ _ _ _ _ _ _ _ _ _ _ _ _ _ _ _ _ _ _ Io R Su Sg1 Kr Kp En One' R'' D D' X1 X2 key P) as X.
    rewrite X. unfold ed_clash. clear X. split.
    + intros (A1 & [A2|(A2 & A3)] & A4); (split; [exact A1|]; split; [|exact A4]); [left; exact A2|right]. split; [exact A2|]. eexists _, _. split; [exact X1|]. split; [exact X2|exact A3].
    + intros (A1 & [A2|(A2 & x & x' & A5 & A6 & A3)] & A4); (split; [exact A1|]; split; [|exact A4]); [left; exact A2|right]. split; [exact A2|].
      pose proof (proj1 (hash_number _ _) A5) as <-. pose proof (proj1 (hash_number _ _) A6) as <-. exact A3.
  - exists data, data', err. split; [exact D|]. split; [exact D'|]. split; [exact F|exact S].
Qed.
End Real.
