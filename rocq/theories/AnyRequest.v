(** Proofs: what signing with any requests gives, and what verification then says. *)

From Coq Require Import String List Lia NArith Permutation.
From Verif Require Import Base Utf8 Canon BodyHash Header Domain Signature KeyRecord Crypto TagList Format Sign Verify
  SpecText SpecCanon SpecHash SpecHeader SpecTag SpecDomain SpecSig SpecRecord SpecFormat SpecSign SpecOutput SpecVerify SpecEnd SpecDkim SpecCause SpecRsa SpecEd SpecReal
  SpecTransit SpecChange SpecReceived SpecReceivedAny SpecAnyRequest
  Concrete HeaderCanonProofs SigProofs SignProofs VerifyProofs VerifyKeys VerifyRun VerifyFacts WidthProofs OutputProofs OutputParse OutputChars EndProofs DkimProofs CauseProofs ConcreteProofs RsaProofs EdSpecProofs EdSignProofs EdEndProofs RealProofs
  ChangeProofs ReceivedProofs ReceivedAny Lib.
Import ListNotations.
Open Scope N_scope.

Section WithEnv.
Variable E : Env.
Notation C := (env_crypto E).
Notation idna := (env_idna E).

Lemma lenient_records : forall headers config sig name value txts k e,
  records_outcome E headers (lenient config) sig name value txts k e -> records_outcome E headers config sig name value txts k e.
Proof.
  intros headers config sig name value txts k e H.
  assert (forall txt k e, record_outcome E headers (lenient config) sig name value txt k e -> record_outcome E headers config sig name value txt k e) as R.
  { intros txt k0 e0 O. destruct O as [A|s e0 A B|s r e0 A B F]; [apply ro_not_text; exact A|eapply ro_format; eassumption|eapply ro_record; eassumption]. }
  induction H; [apply rs_success; auto|apply rs_last; auto|eapply rs_more; eauto].
Qed.

Lemma unchanged_body : forall config sig body, body_matches E (lenient config) sig body ->
  exists e, first_of [(cf_forbid_unsigned_content config = true /\ (exists l, s_body_length sig = Some l
         /\ l < N.of_nat (length (canonical_body (c_body (s_canonicalization sig)) body))), Policy UnsignedContent)] e
    /\ body_status E config sig body = status_of e.
Proof.
  intros config sig body M. destruct (body_outcome E config sig body body M) as (e & F & S). exists e. split; [|exact S]. clear S.
  unfold body_checks in F. unfold body_matches in M. cbv zeta in *. destruct (s_body_length sig) as [l|].
  - destruct M as (covered & rest & Hc & Hl & _). rewrite Hc in F |- *. rewrite app_length in *. destruct e as [e|].
    + apply first_of_cons_some in F as [(X & _)|(_ & F)]; [lia|]. apply first_of_cons_some in F as [((X1 & X2) & <-)|(_ & F)].
      * apply first_of_cons_some. left. split; [|reflexivity]. split; [exact X1|]. exists l. split; [reflexivity|exact X2].
      * apply first_of_cons_some in F as [(X & _)|(_ & F)]; [|inversion F]. exfalso. apply X. left. reflexivity.
    + apply first_of_cons_none in F as (_ & F). apply first_of_cons_none in F as (X & _). apply first_none; [|constructor].
      intros (X1 & l' & X2 & X3). injection X2 as <-. apply X. split; assumption.
  - destruct e as [e|].
    + apply first_of_cons_some in F as [(X & _)|(_ & F)]; [|inversion F]. exfalso. apply X. left. apply sb_refl.
    + apply first_none; [|constructor]. intros (_ & l & X & _). discriminate X.
Qed.

(** the signature among others, on top of a message not changed *)
Theorem placed : forall w config headers above below chunks chunks' clock j r o zone k,
  idna_ok idna -> crypto_nonempty C -> readable_output E headers chunks clock j r o ->
  let headers' := (above ++ signature_field o :: below) ++ headers in
  not_oversigned (s_signed_headers (so_signature o)) headers (above ++ signature_field o :: below) ->
  key_published E r config (fun p => zone (key_name p)) ->
  header_fields headers' -> world_ok w -> steady (w_resolver w) zone -> concat chunks' = concat chunks ->
  nth_error (examined config headers') k = Some (length above, signature_field o) ->
  exists rs res sig err, verify_message E w headers' config chunks' = Val (Some rs) /\ nth_error rs k = Some res
    /\ vr_index res = length above /\ vr_signature res = Some sig /\ written_signature idna (r_format E r) (so_signature o) sig
    /\ first_of (unchanged_checks E headers' config (w_clock w (length above)) sig (concat chunks)) err /\ vr_status res = status_of err.
Proof.
  intros w config headers above below chunks chunks' clock j r o zone k IO NE RO headers' OV K Hf Wo S B Ex.
  destruct (any_signature E r headers chunks clock j o IO NE RO) as (sig & SR & W & _).
  assert (forall c, examined c headers' = examined config headers' -> exists rs res, verify_message E w headers' c chunks' = Val (Some rs) /\ nth_error rs k = Some res
    /\ verdict E (fun p => zone (key_name p)) headers' c (w_clock w (length above)) (concat chunks) (length above) (so_header_name o) (as_bytes (so_header_value o)) res
    /\ evaluation E w headers' c chunks' (fun p => zone (key_name p)) rs
    /\ result_for c headers' rs (length above) (so_header_name o) (as_bytes (so_header_value o)) res) as Run.
  { intros c Ec. destruct (verify_message_cases E w headers' c chunks' Wo Hf) as [[X _]|(_ & rs & V & Ln)].
    { rewrite Ec in X. rewrite X in Ex. destruct k; discriminate Ex. }
    assert (exists res, nth_error rs k = Some res) as (res & Kr).
    { destruct (nth_error rs k) as [res|] eqn:N; [eauto|]. apply nth_error_None in N. apply (f_equal (@length nat)) in Ln. rewrite !map_length, Ec in Ln.
      assert (nth_error (examined config headers') k = None) as Y by (apply nth_error_None; lia). congruence. }
    assert (result_for c headers' rs (length above) (so_header_name o) (as_bytes (so_header_value o)) res) as Rf by (exists k; rewrite Ec; split; [exact Ex|exact Kr]).
    pose proof (steady_evaluation E _ _ _ _ _ _ Wo Hf S V) as Ev. exists rs, res. split; [exact V|]. split; [exact Kr|].
    destruct (evaluation_verdict _ _ _ _ _ _ _ _ _ _ _ Ev Rf) as (Vd & _). rewrite B in Vd. auto. }
  assert (forall s' sig', in_progress E headers' config (w_clock w (length above)) (as_bytes (so_header_value o)) s' sig' ->
    s' = so_header_value o /\ sig' = sig /\ exists p txts rk, lookup_pair E sig p /\ zone (key_name p) = Ok txts
      /\ records_outcome E headers' config sig (so_header_name o) (so_header_value o) (consulted txts) rk None /\ body_matches E (lenient config) sig (concat chunks)) as Fin.
  { intros s' sig' (SR' & G). destruct (signature_read_det _ _ _ _ _ _ SR SR') as (<- & Y). injection Y as <-. split; [reflexivity|]. split; [reflexivity|].
    apply signature_good_iff in G as (_ & _ & L & _).
    assert (signature_good E headers' (lenient config) (w_clock w (length above)) (so_signature o)) as Go.
    { apply lenient_good. pose proof W as (_ & _ & _ & _ & _ & _ & _ & W8 & _). rewrite <- W8. exact L. }
    destruct (Run (lenient config) eq_refl) as (rs0 & res1 & V0 & Kr0 & Vd0 & Ev0 & Rf0).
    destruct (end_to_end E w (lenient config) headers above below chunks chunks' clock j r o (fun p => zone (key_name p)) rs0 res1 IO NE RO OV B Go
      ltac:(intros F; discriminate F) K Ev0 Rf0) as (Su & _).
    destruct Vd0 as [s' e SR0|s' sig' e SR0 G0|s' sig' p' k' e G0 P' A _|s' sig' p' G0 P' A|s' sig' p' txts rk e G0 P' A O|s' sig' p' txts rk G0 P' A O]; try discriminate Su.
    destruct G0 as (SR0 & _). destruct (signature_read_det _ _ _ _ _ _ SR SR0) as (<- & Y). injection Y as <-.
    exists p', txts, rk. split; [exact P'|]. split; [exact A|]. split; [apply lenient_records; exact O|]. apply body_success in Su. exact Su. }
  destruct (Run config eq_refl) as (rs & res & V & Kr & Vd & _ & _).
  exists rs, res, sig.
  assert (exists err, vr_index res = length above /\ vr_signature res = Some sig
    /\ first_of (unchanged_checks E headers' config (w_clock w (length above)) sig (concat chunks)) err /\ vr_status res = status_of err) as (err & I & Sg & F & St).
  2: { exists err. repeat (split; [assumption|]). assumption. }
  assert (forall s' sig', in_progress E headers' config (w_clock w (length above)) (as_bytes (so_header_value o)) s' sig' ->
    exists err, vr_index res = length above /\ vr_signature res = Some sig
      /\ first_of (unchanged_checks E headers' config (w_clock w (length above)) sig (concat chunks)) err /\ vr_status res = status_of err) as Done.
  { intros s' sig' G. destruct (Fin _ _ G) as (-> & -> & p & txts & rk & P & Z & O & M).
    pose proof (vd_body E (fun p => zone (key_name p)) headers' config (w_clock w (length above)) (concat chunks) (length above) (so_header_name o) _ _ _ _ _ _ G P Z O) as Vd1.
    pose proof (verdict_det _ _ _ _ _ _ _ _ _ _ _ Vd Vd1) as ->.
    destruct (unchanged_body config sig (concat chunks) M) as (e & F & S1). exists e. split; [reflexivity|]. split; [reflexivity|]. split; [|exact S1].
    apply first_of_app; [exact (proj2 G)|exact F]. }
  inversion Vd as [s' e SR' E0|s' sig' e SR' G E0|s' sig' p' k' e G P' A LE E0|s' sig' p' G P' A E0|s' sig' p' txts rk e G P' A O E0|s' sig' p' txts rk G P' A O E0];
    [| |rewrite E0; exact (Done _ _ G)..].
  - destruct (signature_read_det _ _ _ _ _ _ SR SR') as (_ & Y). discriminate Y.
  - destruct (signature_read_det _ _ _ _ _ _ SR SR') as (_ & Y). injection Y as <-. exists (Some e). split; [reflexivity|]. split; [reflexivity|]. split; [|reflexivity].
    apply first_of_app_some. exact G.
Qed.
End WithEnv.

Section Real.
Variables (pre : bool) (m : N) (idna : Idna).
Notation E := (real_env pre m idna).

(** ** Keys *)

Lemma accepted_type : forall r : SignRequest E, first_of (request_checks E r) None ->
  match r_signing_key E r with SkRsa _ => key_type_for (r_algorithm E r) = Rsa | SkEd25519 _ => key_type_for (r_algorithm E r) = Ed25519 end.
Proof.
  intros r F. apply first_of_cons_none in F as (F & _). revert F. destruct (r_signing_key E r), (r_algorithm E r); intros F; reflexivity || (exfalso; apply F; exact I).
Qed.

Lemma large_bytes : forall config n e, n <> 0 -> large_enough pre config n ->
  N.max (if pre then 512 else 1024) (cf_min_key_bits config) <= N.of_nat (rsa_bytes (mkRsaKey n e)) * 8.
Proof.
  intros config n e N0 (bytes & A & B). destruct (rsa_bytes_bounds (mkRsaKey n e) N0) as ((_ & U) & P). cbn [rk_n] in U.
  set (l := N.of_nat (rsa_bytes (mkRsaKey n e))) in *. clearbody l.
  assert (bytes - 1 < l); [|lia]. apply (N.pow_lt_mono_r_iff 256); [lia|]. lia.
Qed.

Lemma rsa_any_published : forall (r : SignRequest E) config zone n e d known,
  rsa_pair n e d -> rsa_accepted n e -> large_enough pre config n ->
  r_signing_key E r = SkRsa (C := real_crypto) (mkRsaSecret (mkRsaKey n e) d known) -> key_type_for (r_algorithm E r) = Rsa ->
  published E zone r (rsa_record n e) -> key_published E r config (fun p => zone (key_name p)).
Proof.
  intros r config zone n e d known P Acc L Hk Ha (dn & sn & txts & txt & k & H1 & H2 & H3 & H4 & H5 & (H6 & H8) & H7 & H9).
  exists dn, sn, txts, txt. split; [exact H1|]. split; [exact H2|]. split; [exact H3|]. split; [exact H4|].
  apply record_reads_iff in H5 as (s & A & B). exists s, k, (VkRsa (C := real_crypto) (mkRsaKey n e)).
  split; [exact A|]. split; [exact B|]. rewrite Ha. split; [exact H6|]. split.
  { intros X. rewrite X in H8. destruct H8 as [(? & ? & ? & _ & _ & _ & X')|(? & ? & _ & _ & X')]; inversion X'. }
  split; [exact H7|]. split; [exact H9|]. split; [apply rsa_in_record; assumption|].
  split.
  - intros pk X. injection X as <-. cbn [rsa_size env_crypto real_env real_crypto env_pre]. apply large_bytes; [|exact L]. destruct Acc as (_ & _ & _ & _ & X). lia.
  - rewrite Hk. intros a digest sig X. cbn [verifies rsa_verify env_crypto real_env real_crypto].
    apply (rsa_confirms (mkRsaSecret (mkRsaKey n e) d known)); [exact P|exact X].
Qed.

Lemma ed_any_published : forall (r : SignRequest E) config zone key public,
  ed_public_key sha512 key public ->
  r_signing_key E r = SkEd25519 (C := real_crypto) key -> key_type_for (r_algorithm E r) = Ed25519 ->
  published E zone r (ed_record public) -> key_published E r config (fun p => zone (key_name p)).
Proof.
  intros r config zone key public P Hk Ha (dn & sn & txts & txt & k & H1 & H2 & H3 & H4 & H5 & (H6 & H8) & H7 & H9).
  apply public_spec in P. destruct (public_readable key) as (q & K & _). rewrite <- P in K.
  assert (length public = 32%nat) as L by (rewrite P; apply encode_length).
  exists dn, sn, txts, txt. split; [exact H1|]. split; [exact H2|]. split; [exact H3|]. split; [exact H4|].
  apply record_reads_iff in H5 as (s & A & B). exists s, k, (VkEd25519 (C := real_crypto) (public, q)).
  split; [exact A|]. split; [exact B|]. rewrite Ha. split; [exact H6|]. split.
  { intros X. rewrite X in H8. destruct H8 as [H8|H8]; [rewrite <- H8 in L; discriminate L|]. apply ed_info_longer in H8. cbn in H8. lia. }
  split; [exact H7|]. split; [exact H9|]. split; [eapply ed_in_record; eassumption|].
  split.
  - intros pk X. discriminate X.
  - rewrite Hk. intros a digest sig X. cbn [verifies ed_verify env_crypto real_env real_crypto].
    cbn [primitive_sign ed_sign env_crypto real_env real_crypto] in X. injection X as <-.
    apply ed25519_confirms. rewrite <- P. exact K.
Qed.

Lemma output_type : forall headers chunks clock j (r : SignRequest E) o, readable_output E headers chunks clock j r o ->
  match r_signing_key E r with SkRsa _ => key_type_for (r_algorithm E r) = Rsa | SkEd25519 _ => key_type_for (r_algorithm E r) = Ed25519 end.
Proof.
  intros headers chunks clock j r o ((T & Hh & order & rs & results & Tr & O & S & N1 & N2) & _).
  destruct (sign_results E _ _ _ _ _ _ T Tr Hh O S) as (_ & _ & _ & X). destruct (X _ _ _ N1 N2) as (_ & F & _). apply accepted_type. exact F.
Qed.

(** ** Signing *)

Lemma rsa_room : forall k a data, rsa_pair (rk_n (rs_public k)) (rk_e (rs_public k)) (rs_d k) ->
  (rsa_sign_digest a k (hash_fn real_crypto a data) = None <-> no_room (SkRsa (C := real_crypto) k) a).
Proof.
  intros k a data P.
  assert (rk_n (rs_public k) <> 0) as N0.
  { destruct P as (ps & -> & _ & _ & F). clear -F. induction ps as [|p ps IH]; [discriminate|]. inversion F as [|? ? (Pr & _) F']. subst. cbn [product fold_right].
    specialize (IH F'). destruct Pr as (Pr & _). apply N.neq_mul_0. split; [lia|exact IH]. }
  destruct (rsa_bytes_bounds (rs_public k) N0) as ((Lo & Up) & Pos). cbn [no_room].
  assert (forall l, (N.to_nat l <= rsa_bytes (rs_public k))%nat -> 0 < l -> ~ rk_n (rs_public k) < 256 ^ (l - 1)) as Big.
  { intros l L L0 X. assert (256 ^ (l - 1) <= 256 ^ (N.of_nat (rsa_bytes (rs_public k)) - 1)) by (apply N.pow_le_mono_r; lia). lia. }
  assert (forall l, ~ (N.to_nat l <= rsa_bytes (rs_public k))%nat -> rk_n (rs_public k) < 256 ^ (l - 1)) as Small.
  { intros l L. eapply N.lt_le_trans; [exact Up|]. apply N.pow_le_mono_r; lia. }
  pose proof (fun d => rsa_sign_size a k (hash_fn real_crypto a data) d) as Size.
  assert (emsa_fits a (rsa_bytes (rs_public k)) (hash_fn real_crypto a data) = true
    <-> (N.to_nat (match a with Sha256 => 62 | Sha1 => 46 end) <= rsa_bytes (rs_public k))%nat) as Fits.
  { unfold emsa_fits. rewrite !andb_true_iff, digest_length. split.
    - intros (_ & X). destruct a; apply andb_prop in X as (_ & X); apply Nat.leb_le in X; exact X.
    - intros X. split.
      + apply forallb_forall. intros b I. apply N.ltb_lt. destruct (real_typed pre m idna) as (T & _). specialize (T a data). rewrite Forall_forall in T. apply T. exact I.
      + destruct a; apply andb_true_intro; (split; [reflexivity|apply Nat.leb_le; exact X]). }
  assert (rsa_sign_digest a k (hash_fn real_crypto a data) = None <-> emsa_fits a (rsa_bytes (rs_public k)) (hash_fn real_crypto a data) <> true) as Cut.
  { split.
    - intros X F. unfold rsa_sign_digest in X. destruct (find _ _); [discriminate X|]. destruct P as (_ & _ & _ & Pos1 & _). destruct (rs_d k) as [|d]; [lia|]. cbv zeta in X. rewrite F in X. discriminate X.
    - intros F. destruct (rsa_sign_digest a k (hash_fn real_crypto a data)) as [sig|] eqn:X; [|reflexivity]. destruct (Size _ eq_refl) as (_ & _ & Y). contradiction. }
  rewrite Cut, Fits. clear Cut Fits Size. destruct a; (split; [intros X; apply (Small _ X)|intros X Y; exact (Big _ Y eq_refl X)]).
Qed.

Lemma primitive_room : forall (key : SigningKey real_crypto) alg data, proper_key key ->
  (primitive_sign E key alg (hash_fn real_crypto (alg_hash alg) data) = None <-> no_room key (alg_hash alg)).
Proof.
  intros [k|k] alg data G.
  - cbn [primitive_sign rsa_sign env_crypto real_env real_crypto]. exact (rsa_room k (alg_hash alg) data G).
  - cbn [primitive_sign ed_sign env_crypto real_env real_crypto no_room]. split; [discriminate|intros []].
Qed.

Lemma result_trouble : forall now (r : SignRequest E) headers body res, proper_key (r_signing_key E r) -> signing_result E now r headers body res ->
  exists e, first_of (signing_troubles E (r_signing_key E r) r body) e
    /\ match e with Some e => res = Err e | None => exists o, res = Ok o end.
Proof.
  intros now r headers body res G R.
  assert (forall u prefix post, to_sign E now r headers body u -> (forall l, u_body_length u = Some l -> l < 2^64) ->
    exists data, header_digest E u headers (of_header_name (r_format E r)) (prefix ++ post) = hash_fn real_crypto (alg_hash (r_algorithm E r)) data
    /\ ~ (exists n, r_body_length E r = ExactLen n /\ N.of_nat (length (canonical_body (c_body (r_canonicalization E r)) body)) < n)
    /\ ~ match r_body_length E r with NoLimit => False | MessageContent => 2^64 <= N.of_nat (length (canonical_body (c_body (r_canonicalization E r)) body)) | ExactLen n => 2^64 <= n end) as Cut.
  { intros u prefix post (hashed & l & names & copied & SB & _ & _ & ->) L. cbn [u_body_length] in L. unfold header_digest. cbn [u_algorithm]. eexists. split; [reflexivity|].
    destruct SB as [SB|cb SB|n a b SB Ln SB']; rewrite SB.
    - split; [intros (n & X & _); discriminate X|tauto].
    - split; [intros (n & X & _); discriminate X|]. specialize (L _ eq_refl). fold cb. lia.
    - split; [|specialize (L _ eq_refl); lia]. intros (n' & X & Y). injection X as <-. rewrite SB', app_length in Y. lia. }
  destruct R as [n B L|hashed l SB L|u prefix post T L V PS|u prefix post sig n b64 T L V PS B64 Cl].
  - exists (Some InsufficientContent). split; [|reflexivity]. apply first_of_cons_some. left. split; [eauto|reflexivity].
  - exists (Some SigOverflow). split; [|reflexivity]. apply first_of_cons_some. right. 
    inversion SB as [|cb SB0|n a b SB0 Ln SB']; subst; rewrite SB0.
    + split; [intros (n & X & _); discriminate X|]. apply first_of_cons_some. left. split; [exact L|reflexivity].
    + split; [intros (n' & X & Y); injection X as <-; rewrite SB', app_length in Y; lia|]. apply first_of_cons_some. left. split; [exact L|reflexivity].
  - destruct (Cut u prefix post T L) as (data & D & N1 & N2). rewrite D in PS. apply (proj1 (primitive_room (r_signing_key E r) _ data G)) in PS.
    exists (Some SigningFailure). split; [|reflexivity]. apply first_of_cons_some. right. split; [exact N1|]. apply first_of_cons_some. right. split; [exact N2|].
    apply first_of_cons_some. left. split; [exact PS|reflexivity].
  - destruct (Cut u prefix post T L) as (data & D & N1 & N2). rewrite D in PS.
    exists None. split; [|eauto]. apply first_of_none_iff. constructor; [exact N1|]. constructor; [exact N2|]. constructor; [|constructor].
    cbn [fst]. intros X. apply (primitive_room (r_signing_key E r) (r_algorithm E r) data G) in X. cbn [env_crypto real_env] in *. rewrite X in PS. discriminate PS.
Qed.

Theorem signing_any : forall order headers rs chunks clock,
  Forall (request_typed E) rs -> Forall (fun r => proper_key (r_signing_key E r)) rs -> header_fields headers -> (forall l, Permutation (order l) l) ->
  exists e, first_of (signing_checks E headers rs) e /\
  match e with
  | Some e => sign_message E order headers rs chunks clock = Val (Err e)
  | None => exists results,
      sign_message E order headers rs chunks clock = Val (Ok results) /\ length results = length rs
      /\ forall j r res, nth_error rs j = Some r -> nth_error results j = Some res ->
           exists e, first_of (signing_troubles E (r_signing_key E r) r (concat chunks)) e
             /\ match e with
                | Some e => res = Err e
                | None => exists o, res = Ok o /\ signed_output E headers chunks clock j r o
                end
  end.
Proof.
  intros order headers rs chunks clock T G H O.
  destruct (signing_spec E order headers rs chunks clock (real_typed pre m idna) T H O) as (e & F & X). exists e. split; [exact F|].
  destruct e as [e|]; [exact X|]. destruct X as (results & S & L & R). exists results. split; [exact S|]. split; [exact L|].
  intros j r res N1 N2. specialize (R j r res N1 N2). rewrite Forall_forall in G.
  destruct (result_trouble _ _ _ _ _ (G _ (nth_error_In _ _ N1)) R) as (e & F1 & X). exists e. split; [exact F1|]. destruct e as [e|]; [exact X|].
  destruct X as (o & ->). exists o. split; [reflexivity|]. split; [apply real_typed|]. split; [exact H|]. exists order, rs, results. auto 6.
Qed.

End Real.
