(** Proofs: what becomes of a signed message, however it is received. *)

From Coq Require Import String List Lia NArith Permutation.
From Verif Require Import Base Utf8 Canon BodyHash Header Domain Signature KeyRecord Crypto TagList Format Sign Verify
  SpecText SpecCanon SpecHash SpecHeader SpecTag SpecDomain SpecSig SpecRecord SpecFormat SpecSign SpecOutput SpecVerify SpecEnd SpecDkim SpecCause SpecRsa SpecEd SpecReal SpecUnique
  SpecTransit SpecAuthor SpecChange SpecReceived
  Concrete HeaderCanonProofs SigProofs SignProofs VerifyProofs VerifyKeys VerifyRun VerifyFacts WidthProofs OutputProofs OutputParse OutputChars EndProofs DkimProofs RsaProofs EdSpecProofs EdEndProofs ConcreteProofs RealProofs
  UniqueEnd AuthorProofs ChangeProofs Lib.
Import ListNotations.
Open Scope N_scope.

(** ** Header fields *)

Lemma auto_other : forall n headers fs, ~ In (lower n) signed_by_default ->
  selected (fun f : HeaderField => In (lower (fst f)) signed_by_default) headers fs -> occurrences n (rev (map fst fs)) = 0%nat.
Proof.
  intros n headers fs Hn H. unfold occurrences. apply length_zero_iff_nil. apply filter_none. intros x Hx.
  destruct (same_nameb x n) eqn:Y; [|reflexivity]. exfalso. apply same_nameb_iff in Y. unfold same_name in Y.
  apply In_rev in Hx. apply in_map_iff in Hx as (f & <- & Hin). apply Hn. rewrite <- Y.
  clear - H Hin. induction H; [destruct Hin| |auto]. destruct Hin as [<-|Hin]; auto.
Qed.

Lemma named_length : forall n headers, occurrences n (map fst headers) = length (named n headers).
Proof. exact occurrences_fields. Qed.

Lemma named_rev_length : forall n headers, length (named n (rev headers)) = length (named n headers).
Proof.
  intros n headers. unfold named. induction headers as [|f hs IH]; [reflexivity|]. cbn [rev]. rewrite filter_app, app_length, IH. cbn [filter].
  destruct (same_nameb (fst f) n); cbn [length]; lia.
Qed.

Lemma not_default : forall n, same_name (lit "DKIM-Signature") n -> ~ In (lower n) signed_by_default.
Proof.
  intros n H K. unfold same_name in H. rewrite <- H in K. apply (in_map (leqb (lower (lit "DKIM-Signature")))) in K.
  rewrite leqb_refl in K. apply in_map_iff in K as (y & Y1 & Y2). revert Y1.
  assert (forallb (fun y => negb (leqb (lower (lit "DKIM-Signature")) y)) signed_by_default = true) as Z by (vm_compute; reflexivity).
  rewrite forallb_forall in Z. specialize (Z y Y2). intros K. rewrite K in Z. discriminate.
Qed.

Lemma lowest_all : forall n f headers, In (lower n) signed_by_default -> same_name (fst f) (lit "DKIM-Signature") ->
  lowest (length (named n headers)) n (f :: headers) = named n (rev headers).
Proof.
  intros n f headers Hn Hf. unfold lowest. cbn [rev]. unfold named at 2. rewrite filter_app. cbn [filter].
  destruct (same_nameb (fst f) n) eqn:X.
  - exfalso. apply same_nameb_iff in X. apply (not_default n); [|exact Hn]. unfold same_name in *. congruence.
  - rewrite app_nil_r. fold (named n (rev headers)). rewrite <- named_rev_length. apply firstn_all.
Qed.

(** the two ways to say that the signed fields are the same *)
Lemma kept_default : forall sig fs name name' f headers headers',
  selected (fun f : HeaderField => In (lower (fst f)) signed_by_default) headers fs -> s_signed_headers sig = rev (map fst fs) ->
  c_header (s_canonicalization sig) = Relaxed -> same_name name name' -> same_name (fst f) (lit "DKIM-Signature") ->
  (fields_kept sig name name' (f :: headers) headers' <-> default_intact headers headers').
Proof.
  intros sig fs name name' f headers headers' Sel Nm C Sn Hf. unfold fields_kept, default_intact. cbv zeta. rewrite C, Nm. split.
  - intros (_ & H) n Hn. specialize (H n). rewrite (auto_names n headers fs Hn Sel), named_length in H. rewrite lowest_all in H; assumption.
  - intros H. split; [exact Sn|]. intros n. destruct (in_dec (list_eq_dec N.eq_dec) (lower n) signed_by_default) as [Hn|Hn].
    + rewrite (auto_names n headers fs Hn Sel), named_length, lowest_all by assumption. exact (H n Hn).
    + rewrite (auto_other n headers fs Hn Sel). constructor.
Qed.

Lemma signature_fields_named : forall headers i j n v, In (j, (n, v)) (signature_fields i headers) -> same_name n (lit "DKIM-Signature").
Proof.
  induction headers as [|f hs IH]; intros i j n v H; [destruct H|]. cbn [signature_fields] in H. destruct (same_nameb (fst f) (lit "DKIM-Signature")) eqn:X.
  - destruct H as [H|H]; [|eapply IH; exact H]. injection H as _ H. rewrite H in X. apply same_nameb_iff. exact X.
  - eapply IH; exact H.
Qed.

Section WithEnv.
Variable E : Env.
Notation C := (env_crypto E).
Notation idna := (env_idna E).

Lemma result_named : forall config zone now headers body name value r, result_of E config zone now headers body name value r ->
  same_name name (lit "DKIM-Signature").
Proof.
  intros config zone now headers body name value r (w & chunks & rs & i & _ & _ & _ & _ & _ & (k & K & _) & _).
  apply nth_error_In in K. unfold examined in K. apply (signature_fields_named headers 0%nat i name value).
  revert K. generalize (signature_fields 0 headers). intros l K. rewrite <- (firstn_skipn (cf_max_signatures config) l). apply in_or_app. left. exact K.
Qed.

(** a result for the same message with another body *)
Lemma result_body : forall config zone now headers body name value r body', result_of E config zone now headers body name value r ->
  exists r', result_of E config zone now headers body' name value r'.
Proof.
  intros config zone now headers body name value r body' (w & chunks & rs & i & W & Z & F & _ & _ & (k & K & _) & <-).
  destruct (result_given E config zone w headers [body'] k i name value W Z F K) as (r' & R'). exists r'. cbn [concat] in R'. rewrite app_nil_r in R'. exact R'.
Qed.

Lemma text_given : forall headers name value sig s, signature_read E value s (Ok sig) ->
  signed_text E headers name value sig (hashed_header headers sig name s).
Proof.
  intros headers name value sig s H. apply read_iff in H as (Sc & Ev & tags & T & So). exists s, tags. repeat (split; [assumption|]).
  apply (signed_data_iff E _ _ _ _ _ _ T So). unfold hashed_header, header_hash_input, covered_fields. rewrite map_map. reflexivity.
Qed.

(** a record that confirms one text can fail only by not confirming another *)
Lemma other_outcome : forall headers headers' config sig name name' s txt k rk e,
  record_accepts E headers config sig name s txt k -> record_outcome E headers' config sig name' s txt rk (Some e) ->
  rk = Some k /\ e = VerificationFailure CryptoVerificationFailure.
Proof.
  intros headers headers' config sig name name' s txt k rk e A O. apply accepts_iff in A.
  inversion A as [| |t k0 e0 T1 T2 F]; subst.
  inversion O as [T1'|t' e' T1' T2'|t' k' e' T1' T2' F']; subst; try (pose proof (record_text_det _ _ _ T1 T1') as X; discriminate X).
  - pose proof (record_text_det _ _ _ T1 T1') as X. injection X as <-. congruence.
  - pose proof (record_text_det _ _ _ T1 T1') as X. injection X as <-. assert (k' = k) as -> by congruence. split; [reflexivity|].
    unfold key_checks in F, F'. cbv zeta in F, F'.
    do 7 (apply first_of_cons_none in F as (? & F); apply first_of_cons_some in F' as [(? & _)|(_ & F')]; [contradiction|]).
    apply first_of_cons_some in F' as [(_ & ->)|(_ & F')]; [reflexivity|inversion F'].
Qed.

(** ** A message signed with a fresh request *)

Section Fresh.
Variables (d s : str) (alg : SigningAlg) (key : SigningKey C) (headers : list HeaderField) (chunks : list (list byte)) (clock : nat -> N) (j : nat)
  (o : SigningOutput) (zone : str -> IoResult (list (IoResult (list byte)))).
Notation req := (request_new E d s alg key).
Notation signed := (clock j).
Notation value := (as_bytes (so_header_value o)).
Notation field := (signature_field o).
Hypothesis IO : idna_ok idna.
Hypothesis NE : crypto_nonempty C.
Hypothesis Hd : Forall is_scalar d.
Hypothesis Hs : Forall is_scalar s.
Hypothesis Ha : alg <> RsaSha1.
Hypothesis HO : signed_output E headers chunks clock j req o.
Hypothesis K : key_published E req default_config (fun p => zone (key_name p)).
Hypothesis One : sole_record E zone d s.
Hypothesis T1 : signed < 2^64 - 1.

Lemma fresh_signature : exists sig fs, signature_read E value (so_header_value o) (Ok sig)
  /\ s_algorithm sig = alg /\ s_body_length sig = None /\ c_header (s_canonicalization sig) = Relaxed /\ c_body (s_canonicalization sig) = Simple
  /\ selected (fun f : HeaderField => In (lower (fst f)) signed_by_default) headers fs /\ s_signed_headers sig = rev (map fst fs)
  /\ s_timestamp sig = Some signed /\ s_expiration sig = Some (N.min (signed + 432000) (2^64 - 1))
  /\ exists p txt, lookup_pair E sig p /\ zone (key_name p) = Ok [txt].
Proof.
  destruct (fresh_readable E d s alg key _ _ _ _ _ Hd Hs Ha T1 HO) as (_ & HR & HT & HZ & HX).
  destruct (signed_output_of _ _ _ _ _ _ _ HO) as (pre & post & n & b64 & O).
  pose proof (output_scalar _ _ _ _ _ _ _ _ _ _ _ _ IO O HR HX) as Sc.
  destruct (output_parses E _ _ _ _ _ _ _ _ _ _ _ IO NE O HR HT HZ) as (sig & P & W).
  destruct W as (W1 & W2 & W3 & W4 & W5 & W6 & W7 & W8 & W9 & W10 & W11 & _).
  destruct (request_parts _ _ _ _ _ _ _ HO) as (hashed & names & _ & Nm & Qn & Qa & _ & Qc & Qd & Qs & _ & Qt & Qx & (Td & Ts & _)).
  inversion Nm as [fs _ Sel E1|]; [subst|discriminate]. exists sig, fs.
  split; [apply sgr_text; [exact Sc|reflexivity|exact P]|]. split; [rewrite W1; exact Qa|].
  split; [rewrite W8; exact (fresh_length _ _ _ _ _ _ _ _ _ _ HO)|]. rewrite W4, Qc. split; [reflexivity|]. split; [reflexivity|]. split; [exact Sel|].
  split; [rewrite W6; symmetry; assumption|]. split; [rewrite W10, Qt; reflexivity|]. split; [rewrite W11, Qx; reflexivity|].
  destruct K as (dn & sn & txts & txt & D & Sl & _ & _). cbn [request_new r_domain r_selector] in *. destruct (One dn sn D Sl) as (txt1 & Z).
  exists (dn, sn), txt1. split; [|exact Z]. split; cbn [fst snd].
  - rewrite <- D. eapply (written_domain _ _ _ _ _ IO Td). rewrite <- Qd. exact W5.
  - rewrite <- Sl. eapply (written_domain _ _ _ _ _ IO Ts). rewrite <- Qs. exact W9.
Qed.

Lemma fresh_pair : forall sig p dn sn, signature_read E value (so_header_value o) (Ok sig) -> lookup_pair E sig p ->
  idna_to_ascii idna d = Some dn -> idna_to_ascii idna s = Some sn -> p = (dn, sn).
Proof.
  intros sig p dn sn SR LP D S.
  destruct (fresh_readable E d s alg key _ _ _ _ _ Hd Hs Ha T1 HO) as (_ & HR & HT & HZ & HX).
  destruct (signed_output_of _ _ _ _ _ _ _ HO) as (pre & post & n & b64 & O).
  pose proof (output_scalar _ _ _ _ _ _ _ _ _ _ _ _ IO O HR HX) as Sc.
  destruct (output_parses E _ _ _ _ _ _ _ _ _ _ _ IO NE O HR HT HZ) as (sig0 & P & W).
  assert (signature_read E value (so_header_value o) (Ok sig0)) as SR0 by (apply sgr_text; [exact Sc|reflexivity|exact P]).
  destruct (signature_read_det _ _ _ _ _ _ SR SR0) as (_ & X). injection X as <-.
  destruct W as (_ & _ & _ & _ & W5 & _ & _ & _ & W9 & _).
  destruct (request_parts _ _ _ _ _ _ _ HO) as (hashed & names & _ & _ & _ & _ & _ & _ & Qd & Qs & _ & _ & _ & (Td & Ts & _)).
  rewrite Qd in W5. rewrite Qs in W9. destruct LP as (L1 & L2).
  destruct (written_domain _ _ _ _ _ IO Td W5) as (_ & Y1 & _). destruct (written_domain _ _ _ _ _ IO Ts W9) as (_ & Y2 & _).
  cbn [request_new r_domain r_selector] in *. destruct p as [p1 p2]. cbn [fst snd] in *. congruence.
Qed.

(** if the time is right, the message as it was sent is found good *)
Lemma fresh_success : forall now, signed <= now + 300 -> now < signed + 432000 + 300 -> now < 2^64 - 1 ->
  exists r, result_of E default_config zone now (field :: headers) (concat chunks) (so_header_name o) value r /\ vr_status r = Success.
Proof.
  intros now T2 T3 T4.
  set (w := mkWorld (mkResolver (fun _ => zone) (fun _ _ => 0)) (fun _ => now) (fun l => l) (fun l => l)).
  assert (world_ok w) as W by (split; intros l; apply Permutation_refl).
  assert (steady (w_resolver w) zone) as S by (intros ? ?; reflexivity).
  destruct (fresh_end_to_end E w d s alg key headers chunks chunks clock j o zone IO NE Hd Hs Ha HO W S K eq_refl T1 T2 T3 T4) as (res & rest & V & _ & Su).
  pose proof (fresh_readable E d s alg key _ _ _ _ _ Hd Hs Ha T1 HO) as HR. destruct (field_named E _ _ _ _ _ _ IO HR) as [Fn Ff].
  exists res. split; [|exact Su]. exists w, chunks, (res :: rest), 0%nat. split; [exact W|]. split; [exact S|].
  split; [inversion Ff; constructor; [assumption|apply (proj1 (proj2 HO))]|]. split; [reflexivity|]. split; [exact V|]. split; [|reflexivity].
  exists 0%nat. split; [|reflexivity]. unfold examined. change (cf_max_signatures default_config) with 10%nat. cbn [signature_fields signature_field fst].
  apply same_nameb_iff in Fn. rewrite Fn. reflexivity.
Qed.

Theorem received : forall now headers' body' name' r' sig (Q : Prop), signature_read E value (so_header_value o) (Ok sig) ->
  result_of E default_config zone now headers' body' name' value r' ->
  (forall r, result_of E default_config zone now (field :: headers) (concat chunks) (so_header_name o) value r -> vr_status r = Success ->
   forall body'' r'', result_of E default_config zone now headers' body'' name' value r'' ->
   (vr_status r'' = Success <-> protected_signed default_config sig headers' /\ Q /\ body_kept E default_config sig (concat chunks) body'')) ->
  exists e, first_of (receipt_checks signed now headers headers' Q (body_same E (concat chunks) body')) e
    /\ vr_status r' = status_of e /\ vr_signature r' = Some sig.
Proof.
  intros now headers' body' name' r' sig Q SR R' Ch.
  destruct fresh_signature as (sig0 & fs & SR0 & Al & Bl & Ch1 & Cb & Sel & Nm & Ti & Ex & p & txt & P & Z).
  destruct (signature_read_det _ _ _ _ _ _ SR0 SR) as (_ & X). injection X as ->. clear SR0.
  assert (forall n, In (lower n) signed_by_default -> occurrences n (s_signed_headers sig) = length (named n headers)) as Oc.
  { intros n Hn. rewrite Nm, (auto_names n headers fs Hn Sel). apply named_length. }
  assert (unsigned_occurrence headers' default_config sig <-> (length (named (lit "From") headers) < length (named (lit "From") headers'))%nat) as U.
  { unfold unsigned_occurrence. rewrite <- (named_length (lit "From") headers'), <- (Oc (lit "From")) by (left; reflexivity). split.
    - intros (n & [<-|[]] & L). exact L.
    - intros L. exists (lit "From"). split; [left; reflexivity|exact L]. }
  assert (expired default_config now sig <-> signed + 5 * 24 * 60 * 60 + 300 <= now \/ 2^64 - 1 <= now) as X.
  { unfold expired. rewrite Ex. change (cf_time_tolerance default_config) with 300. change (seconds default_config now) with now. change (5 * 24 * 60 * 60) with 432000. split.
    - intros (_ & x & Y & L). injection Y as <-. lia.
    - intros L. split; [reflexivity|]. eexists. split; [reflexivity|]. lia. }
  assert (in_future default_config now sig <-> now + 300 < signed) as Fu.
  { unfold in_future. rewrite Ti. change (cf_time_tolerance default_config) with 300. change (seconds default_config now) with now. split.
    - intros (_ & x & Y & L). injection Y as <-. exact L.
    - intros L. split; [reflexivity|]. eexists. split; [reflexivity|]. exact L. }
  assert (~ required_missing default_config sig) as N1 by (intros (n & [] & _)).
  assert (~ length_unusable E sig) as N2 by (intros (l & Y & _); congruence).
  assert (~ forbidden_sha1 default_config sig) as N3.
  { intros (_ & Y). rewrite Al in Y. destruct alg; try discriminate Y. contradiction. }
  assert (body_kept E default_config sig (concat chunks) body' <-> body_same E (concat chunks) body') as Bk.
  { unfold body_kept, body_same. rewrite Bl, Cb, Al. assert (alg_hash alg = Sha256) as -> by (destruct alg; try reflexivity; contradiction). reflexivity. }
  destruct (result_verdict E _ _ _ _ _ _ _ _ R') as (i & V & _).
  (* when all is well up to the lookup *)
  assert (forall s', in_progress E headers' default_config now value s' sig -> s' = so_header_value o /\ protected_signed default_config sig headers'
    /\ ~ (length (named (lit "From") headers) < length (named (lit "From") headers'))%nat
    /\ ~ (signed + 5 * 24 * 60 * 60 + 300 <= now \/ 2^64 - 1 <= now) /\ ~ now + 300 < signed
    /\ exists r k, result_of E default_config zone now (field :: headers) (concat chunks) (so_header_name o) value r /\ vr_status r = Success
       /\ record_accepts E (field :: headers) default_config sig (so_header_name o) (so_header_value o) txt k
       /\ body_matches E default_config sig (concat chunks)) as Pr.
  { intros s' (SR' & G). destruct (signature_read_det _ _ _ _ _ _ SR SR') as (<- & _). split; [reflexivity|].
    pose proof (proj1 (signature_good_iff _ _ _ _ _) G) as Good. unfold signature_checks in G.
    apply first_of_cons_none in G as (_ & G). apply first_of_cons_none in G as (G1 & G). apply first_of_cons_none in G as (_ & G).
    apply first_of_cons_none in G as (G2 & G). apply first_of_cons_none in G as (G3 & _).
    split; [destruct Good as (_ & Y & _); exact Y|]. rewrite U in G1. rewrite X in G2. rewrite Fu in G3. split; [exact G1|]. split; [exact G2|]. split; [exact G3|].
    change (5 * 24 * 60 * 60) with 432000 in G2.
    destruct (fresh_success now) as (r & R & S); [lia..|].
    destruct (result_verdict E _ _ _ _ _ _ _ _ R) as (i0 & V0 & _).
    destruct (verdict_success_record _ _ _ _ _ _ _ _ _ _ V0 S) as (s0 & sig1 & txt1 & k & p1 & txts & SR1 & _ & _ & _ & P1 & A & I & Ac & BM).
    destruct (signature_read_det _ _ _ _ _ _ SR SR1) as (<- & Y). injection Y as <-. pose proof (lookup_pair_det _ _ _ _ P P1) as <-.
    rewrite Z in A. injection A as <-. destruct I as [<-|[]]. exists r, k. auto. }
  inversion V as [s' e SR' E0|s' sig' e SR' G E0|s' sig' p' k e G P' A _ E0|s' sig' p' G P' A E0|s' sig' p' txts rk e G P' A O E0|s' sig' p' txts rk G P' A O E0].
  - destruct (signature_read_det _ _ _ _ _ _ SR SR') as (_ & Y). discriminate Y.
  - destruct (signature_read_det _ _ _ _ _ _ SR SR') as (_ & Y). injection Y as <-. exists (Some e). split; [|split; reflexivity]. unfold signature_checks in G. unfold receipt_checks.
    apply first_of_cons_some in G as [(Y & _)|(_ & G)]; [contradiction|].
    apply first_of_cons_some in G as [(Y & ->)|(Y & G)]; apply first_of_cons_some; rewrite U in Y; [left; auto|right; split; [exact Y|]].
    apply first_of_cons_some in G as [(Y1 & _)|(_ & G)]; [contradiction|].
    apply first_of_cons_some in G as [(Y1 & ->)|(Y1 & G)]; apply first_of_cons_some; rewrite X in Y1; [left; auto|right; split; [exact Y1|]].
    apply first_of_cons_some in G as [(Y2 & ->)|(Y2 & G)]; apply first_of_cons_some; rewrite Fu in Y2; [left; auto|right; split; [exact Y2|]].
    apply first_of_cons_some in G as [(Y3 & _)|(_ & G)]; [contradiction|inversion G].
  - destruct G as (SR' & _). destruct (signature_read_det _ _ _ _ _ _ SR SR') as (_ & Y). injection Y as <-. pose proof (lookup_pair_det _ _ _ _ P P') as <-. congruence.
  - destruct G as (SR' & _). destruct (signature_read_det _ _ _ _ _ _ SR SR') as (_ & Y). injection Y as <-. pose proof (lookup_pair_det _ _ _ _ P P') as <-. congruence.
  - pose proof G as (SR' & _). destruct (signature_read_det _ _ _ _ _ _ SR SR') as (_ & Y). injection Y as <-. pose proof (lookup_pair_det _ _ _ _ P P') as <-.
    rewrite Z in A. injection A as <-. destruct (Pr _ G) as (-> & Pt & C1 & C2 & C3 & r & k & R & S & Ac & BM).
    assert (record_outcome E headers' default_config sig name' (so_header_value o) txt rk (Some e)) as O1.
    { inversion O as [|? ? ? Oo|? ? ? ? ? ? Nn]; [exact Oo|]. contradiction Nn. reflexivity. }
    destruct (other_outcome _ _ _ _ _ _ _ _ _ _ _ Ac O1) as (_ & ->).
    exists (Some (VerificationFailure CryptoVerificationFailure)). split; [|split; reflexivity].
    do 3 (apply first_of_cons_some; right; split; [assumption|]). apply first_of_cons_some. left. split; [|reflexivity]. intros HQ.
    destruct (result_body _ _ _ _ _ _ _ _ (concat chunks) R') as (r'' & R'').
    assert (vr_status r'' = Success) as S''.
    { apply (Ch r R S _ _ R''). split; [exact Pt|]. split; [exact HQ|]. apply (kept_matches _ _ _ _ _ BM). exact BM. }
    destruct (result_verdict E _ _ _ _ _ _ _ _ R'') as (i'' & V'' & _).
    rewrite (verdict_det _ _ _ _ _ _ _ _ _ _ _ V'' (vd_key _ _ _ _ _ _ _ _ _ _ _ _ _ _ _ G P Z O)) in S''. discriminate S''.
  - pose proof G as (SR' & _). destruct (signature_read_det _ _ _ _ _ _ SR SR') as (_ & Y). injection Y as <-. pose proof (lookup_pair_det _ _ _ _ P P') as <-.
    rewrite Z in A. injection A as <-. destruct (Pr _ G) as (-> & Pt & C1 & C2 & C3 & r & k & R & S & Ac & BM).
    assert Q as HQ.
    { destruct (result_body _ _ _ _ _ _ _ _ (concat chunks) R') as (r'' & R''). destruct (result_verdict E _ _ _ _ _ _ _ _ R'') as (i'' & V'' & _).
      apply (Ch r R S _ _ R''). rewrite (verdict_det _ _ _ _ _ _ _ _ _ _ _ V'' (vd_body _ _ _ _ _ _ _ _ _ _ _ _ _ _ G P Z O)). cbn [vr_status]. apply body_success. exact BM. }
    cbn [vr_status]. pose proof (body_success E default_config sig body') as Bs. rewrite (kept_matches _ _ _ _ _ BM), Bk in Bs.
    assert (body_status E default_config sig body' = Success \/ body_status E default_config sig body' = Failure BodyHashMismatch) as [Y|Y].
    { unfold body_status, expected_result. rewrite Bl. cbv zeta. destruct (leqb _ _); auto. }
    + exists None. split; [|split; [exact Y|reflexivity]]. apply first_of_none_iff. repeat constructor; cbn [fst]; try assumption; [intros Nq; exact (Nq HQ)|]. intros Nb. apply Nb. apply Bs. exact Y.
    + exists (Some BodyHashMismatch). split; [|split; [exact Y|reflexivity]]. do 3 (apply first_of_cons_some; right; split; [assumption|]).
      apply first_of_cons_some. right. split; [intros Nq; exact (Nq HQ)|]. apply first_of_cons_some. left. split; [|reflexivity]. intros Sb. apply Bs in Sb. congruence.
Qed.
End Fresh.
End WithEnv.

(** ** With the real cryptography *)

Section Real.
Variables (pre : bool) (m : N) (idna : Idna).
Notation E := (real_env pre m idna).

Theorem rsa_received : forall order n e d known dom sel headers chunks clock zone,
  idna_ok idna -> rsa_pair n e d -> rsa_accepted n e -> 2 ^ 1016 <= n ->
  domain_text idna dom true -> domain_text idna sel false -> Forall is_scalar dom -> Forall is_scalar sel ->
  (forall l, Permutation (order l) l) -> header_fields headers -> (exists f, In f headers /\ same_name (fst f) (lit "From")) ->
  rsa_published E zone dom sel n e -> sole_record E zone dom sel -> clock 0%nat < 2^64 - 1 ->
  let key := SkRsa (C := real_crypto) (mkRsaSecret (mkRsaKey n e) d known) in
  exists o, sign_message E order headers [request_new E dom sel RsaSha256 key] chunks clock = Val (Ok [Ok o])
    /\ let value := as_bytes (so_header_value o) in
       forall now headers' body' name' r', result_of E default_config zone now headers' body' name' value r' ->
       exists sig data data' err,
         signed_text E (signature_field o :: headers) (so_header_name o) value sig data /\ signed_text E headers' name' value sig data'
         /\ first_of (receipt_checks (clock 0%nat) now headers headers' (default_intact headers headers' \/ collision E Sha256 data data')
                        (body_same E (concat chunks) body')) err
         /\ vr_status r' = status_of err /\ vr_signature r' = Some sig.
Proof.
  intros order n e d known dom sel headers chunks clock zone Io P Acc L Hd Hs Sd Ss O H From Pub One T1 key.
  destruct (rsa_signing pre m idna order headers (request_new E dom sel RsaSha256 key) chunks clock n e d known P Acc L) as (o & Sg & So); try reflexivity; try assumption.
  - apply request_new_typed; assumption.
  - apply request_new_fine.
  - exists o. split; [exact Sg|]. intros value now headers' body' name' r' R'.
    assert (key_published E (request_new E dom sel RsaSha256 key) default_config (fun p => zone (key_name p))) as K
      by (eapply (rsa_key_published pre m idna (request_new E dom sel RsaSha256 key)); try eassumption; try reflexivity; discriminate).
    destruct (fresh_signature E dom sel RsaSha256 key headers chunks clock 0 o zone Io real_nonempty Sd Ss ltac:(discriminate) So K One T1)
      as (sig & fs & SR & Al & Bl & Ch & Cb & Sel & Nm & Ti & Ex & p & txt & LP & Z).
    destruct (field_named E _ _ _ _ _ _ Io (fresh_readable E dom sel RsaSha256 key _ _ _ _ _ Sd Ss ltac:(discriminate) T1 So)) as [Fn _].
    pose proof (text_given E (signature_field o :: headers) (so_header_name o) _ _ _ SR) as D.
    pose proof (text_given E headers' name' _ _ _ SR) as D'.
    destruct (received E dom sel RsaSha256 key headers chunks clock 0 o zone Io real_nonempty Sd Ss ltac:(discriminate) So K One T1 now headers' body' name' r' sig
      (default_intact headers headers' \/ collision E Sha256 (hashed_header (signature_field o :: headers) sig (so_header_name o) (so_header_value o))
         (hashed_header headers' sig name' (so_header_value o))) SR R') as (err & F & S).
    + intros r R Su body'' r'' R''.
      assert (vr_signature r = Some sig) as Sg1.
      { destruct (result_verdict E _ _ _ _ _ _ _ _ R) as (i & V & _).
        destruct (verdict_success_record _ _ _ _ _ _ _ _ _ _ V Su) as (s1 & sig1 & _ & _ & _ & _ & SR1 & _ & Sg1 & _).
        destruct (signature_read_det _ _ _ _ _ _ SR SR1) as (_ & X). injection X as <-. exact Sg1. }
      assert (key_type_for (s_algorithm sig) = Rsa) as Kt by (rewrite Al; reflexivity).
      assert (one_record E zone sig) as One'. { intros p' LP'. pose proof (lookup_pair_det _ _ _ _ LP LP') as <-. exists txt. exact Z. }
      pose proof (rsa_change_one _ _ _ _ _ _ _ _ _ _ _ _ _ _ _ _ _ _ Io R Su Sg1 Kt One' R'' D D') as X.
      rewrite Al in X. cbn [alg_hash] in X.
      pose proof (kept_default sig fs (so_header_name o) name' (signature_field o) headers headers' Sel Nm Ch) as Kd.
      assert (same_name (so_header_name o) name') as Sn. { pose proof (result_named E _ _ _ _ _ _ _ _ R'') as Y. unfold same_name in *. congruence. }
      specialize (Kd Sn Fn). tauto.
    + exists sig. eexists. eexists. exists err. split; [exact D|]. split; [exact D'|]. split; [exact F|exact S].
Qed.

Theorem ed_received : forall order key public dom sel headers chunks clock zone,
  idna_ok idna -> ed_public_key sha512 key public ->
  domain_text idna dom true -> domain_text idna sel false -> Forall is_scalar dom -> Forall is_scalar sel ->
  (forall l, Permutation (order l) l) -> header_fields headers -> (exists f, In f headers /\ same_name (fst f) (lit "From")) ->
  ed_published E zone dom sel public -> sole_record E zone dom sel -> clock 0%nat < 2^64 - 1 ->
  let sk := SkEd25519 (C := real_crypto) key in
  exists o, sign_message E order headers [request_new E dom sel Ed25519Sha256 sk] chunks clock = Val (Ok [Ok o])
    /\ let value := as_bytes (so_header_value o) in
       forall now headers' body' name' r', result_of E default_config zone now headers' body' name' value r' ->
       exists sig data data' err,
         signed_text E (signature_field o :: headers) (so_header_name o) value sig data /\ signed_text E headers' name' value sig data'
         /\ first_of (receipt_checks (clock 0%nat) now headers headers'
                        (default_intact headers headers' \/ ed_clash sha512 (hash_fn real_crypto Sha256) public (s_signature_data sig) data data')
                        (body_same E (concat chunks) body')) err
         /\ vr_status r' = status_of err /\ vr_signature r' = Some sig.
Proof.
  intros order key public dom sel headers chunks clock zone Io P Hd Hs Sd Ss O H From Pub One T1 sk.
  destruct (ed_signing pre m idna order headers (request_new E dom sel Ed25519Sha256 sk) chunks clock key) as (o & Sg & So); try reflexivity; try assumption.
  - apply request_new_typed; assumption.
  - apply ed_request_fine.
  - exists o. split; [exact Sg|]. intros value now headers' body' name' r' R'.
    assert (key_published E (request_new E dom sel Ed25519Sha256 sk) default_config (fun p => zone (key_name p))) as K
      by (eapply (ed_key_published pre m idna (request_new E dom sel Ed25519Sha256 sk)); try eassumption; try reflexivity).
    destruct (fresh_signature E dom sel Ed25519Sha256 sk headers chunks clock 0 o zone Io real_nonempty Sd Ss ltac:(discriminate) So K One T1)
      as (sig & fs & SR & Al & Bl & Ch & Cb & Sel & Nm & Ti & Ex & p & txt & LP & Z).
    destruct (field_named E _ _ _ _ _ _ Io (fresh_readable E dom sel Ed25519Sha256 sk _ _ _ _ _ Sd Ss ltac:(discriminate) T1 So)) as [Fn _].
    pose proof (text_given E (signature_field o :: headers) (so_header_name o) _ _ _ SR) as D.
    pose proof (text_given E headers' name' _ _ _ SR) as D'.
    set (data := hashed_header (signature_field o :: headers) sig (so_header_name o) (so_header_value o)) in *.
    set (data' := hashed_header headers' sig name' (so_header_value o)) in *. clearbody data data'.
    destruct (received E dom sel Ed25519Sha256 sk headers chunks clock 0 o zone Io real_nonempty Sd Ss ltac:(discriminate) So K One T1 now headers' body' name' r' sig
      (default_intact headers headers' \/ ed_clash sha512 (hash_fn real_crypto Sha256) public (s_signature_data sig) data data') SR R') as (err & F & S).
    + intros r R Su body'' r'' R''.
      destruct (result_verdict E _ _ _ _ _ _ _ _ R) as (i & V & _).
      destruct (verdict_success_record _ _ _ _ _ _ _ _ _ _ V Su) as (s1 & sig1 & txt1 & k & p1 & txts1 & SR1 & _ & Sg1 & Kr & LP1 & A1 & I1 & Ac1 & _).
      destruct (signature_read_det _ _ _ _ _ _ SR SR1) as (_ & X). injection X as <-. pose proof (lookup_pair_det _ _ _ _ LP LP1) as <-.
      rewrite Z in A1. injection A1 as <-. destruct I1 as [<-|[]].
      assert (ed_key_of k public) as Kp.
      { destruct Pub as (dn & sn & txts2 & txt2 & k2 & P1 & P2 & P3 & P4 & P5 & P6 & _ & P8).
        assert (p = (dn, sn)) as ->.
        { exact (fresh_pair E dom sel Ed25519Sha256 sk headers chunks clock 0 o Io real_nonempty Sd Ss ltac:(discriminate) So T1 sig p dn sn SR LP P1 P2). }
        unfold key_name in Z. cbn [fst snd] in Z. change (lit ".") with [46] in P3. rewrite P3 in Z. injection Z as ->. destruct P4 as [<-|[]].
        apply CauseProofs.record_reads_iff in P5 as (t & Q1 & Q2). destruct Ac1 as (t' & key' & Q1' & Q2' & _).
        pose proof (record_text_det _ _ _ Q1 Q1') as Y. injection Y as <-. assert (k2 = k) as -> by congruence. split; assumption. }
      assert (one_record E zone sig) as One'. { intros p' LP'. pose proof (lookup_pair_det _ _ _ _ LP LP') as <-. exists txt. exact Z. }
      assert (exists a, ed_reading a public) as (a & En) by (destruct P as (? & ? & ? & a & _ & _ & _ & En); exists a; apply encoding_reading; exact En).
      pose proof (proj2 (hash_number (firstn 32 (s_signature_data sig) ++ public ++ hash_fn real_crypto (alg_hash (s_algorithm sig)) data) _) eq_refl) as X1.
      pose proof (proj2 (hash_number (firstn 32 (s_signature_data sig) ++ public ++ hash_fn real_crypto (alg_hash (s_algorithm sig)) data') _) eq_refl) as X2.
      pose proof (ed_change_private _ _ _ _ _ _ _ _ _ _ _ _ _ _ _ _ _ _ _ _ _ _ _ Io R Su Sg1 Kr Kp En One' R'' D D' X1 X2 key P) as X.
      pose proof (kept_default sig fs (so_header_name o) name' (signature_field o) headers headers' Sel Nm Ch) as Kd.
      assert (same_name (so_header_name o) name') as Sn. { pose proof (result_named E _ _ _ _ _ _ _ _ R'') as Y. unfold same_name in *. congruence. }
      specialize (Kd Sn Fn).
      assert (alg_hash (s_algorithm sig) = Sha256) as Ah by (rewrite Al; reflexivity). rewrite Ah in X, X1, X2.
      rewrite X. rewrite Kd. unfold ed_clash. clear X. split.
      * intros (A1 & [A2|(A2 & A3)] & A4); (split; [exact A1|]; split; [|exact A4]); [left; exact A2|right]. split; [exact A2|]. eexists _, _. split; [exact X1|]. split; [exact X2|exact A3].
      * intros (A1 & [A2|(A2 & x & x' & A5 & A6 & A3)] & A4); (split; [exact A1|]; split; [|exact A4]); [left; exact A2|right]. split; [exact A2|].
        pose proof (proj1 (hash_number _ _) A5) as <-. pose proof (proj1 (hash_number _ _) A6) as <-. exact A3.
    + exists sig, data, data', err. split; [exact D|]. split; [exact D'|]. split; [exact F|exact S].
Qed.
End Real.
