(** Proofs of end-to-end properties. *)

From Coq Require Import String List Permutation.
From Verif Require Import Base Utf8 Canon BodyHash Header Domain Signature KeyRecord Crypto TagList Format Sign Verify
  SpecText SpecCanon SpecHash SpecHeader SpecTag SpecDomain SpecSig SpecRecord SpecFormat SpecSign SpecOutput SpecVerify SpecEnd
  Utf8Proofs HeaderCanonProofs SigProofs OutputProofs OutputParse OriginalProofs WidthProofs OutputChars
  VerifyProofs VerifyKeys VerifyRun VerifyFacts Lib.
Import ListNotations.
Open Scope N_scope.

Lemma occurrences_fields : forall n (headers : list HeaderField),
  occurrences n (map fst headers) = length (filter (fun f => same_nameb (fst f) n) headers).
Proof.
  intros n headers. unfold occurrences. induction headers as [|f h IH]; [reflexivity|]. cbn [map filter].
  destruct (same_nameb (fst f) n); cbn [length]; congruence.
Qed.

(** ** Header selection *)

Lemma hash_input_above : forall alg names headers extra, header_fields (extra ++ headers) -> not_oversigned names headers extra ->
  header_hash_input alg (extra ++ headers) names = header_hash_input alg headers names.
Proof.
  intros alg names headers extra H N.
  assert (forall h, header_fields h -> Forall (fun f => valid_name (fst f)) h) as V.
  { intros h Hh. eapply Forall_impl; [|exact Hh]. intros f [X _]. destruct X as [X1 X2]. split; [exact X1|].
    eapply Forall_impl; [|exact X2]. unfold ftext. intros; lia. }
  pose proof (V _ H) as Hv. pose proof Hv as Hv'. apply Forall_app in Hv' as [_ Hv'].
  rewrite <- !canonicalize_headers_spec by assumption. symmetry. apply headers_agree; try assumption.
  apply agree_above. intros n Hn (f & Hf & S). rewrite <- occurrences_fields. apply (N n f Hn Hf). apply same_nameb_iff. exact S.
Qed.

Section WithEnv.
Variable E : Env.
Notation C := (env_crypto E).
Notation idna := (env_idna E).

(** what is verified is what was signed *)
Lemma output_verifies : forall headers chunks clock j r o key, idna_ok idna ->
  signed_output E headers chunks clock j r o -> keys_match E (r_signing_key E r) key ->
  let s := so_signature o in
  verifies E key (alg_hash (s_algorithm s))
    (hash_fn C (alg_hash (s_algorithm s))
      (header_hash_input (c_header (s_canonicalization s)) headers (s_signed_headers s)
       ++ canonical_field (c_header (s_canonicalization s))
            (so_header_name o, as_bytes (make_original_dkim_sig (so_header_value o))))) (s_signature_data s).
Proof.
  intros headers chunks clock j r o key IO H K s. destruct (signed_output_of _ _ _ _ _ _ _ H) as (pre & post & n & b64 & O).
  apply K. rewrite (output_original E _ _ _ _ _ _ _ _ _ _ _ IO O). pose proof (oo_sign _ _ _ _ _ _ _ _ _ _ _ _ O) as S.
  replace (so_header_name o) with (of_header_name (r_format E r)) by (rewrite (oo_o _ _ _ _ _ _ _ _ _ _ _ _ O); reflexivity).
  assert (r_algorithm E r = s_algorithm s) as A; [|rewrite A in S; exact S].
  destruct (oo_u _ _ _ _ _ _ _ _ _ _ _ _ O) as (? & ? & ? & ? & _ & _ & _ & X). apply (f_equal u_algorithm) in X. symmetry. exact X.
Qed.

Lemma request_parts : forall headers chunks clock j r o, signed_output E headers chunks clock j r o ->
  exists hashed names, signed_body E r (concat chunks) hashed (s_body_length (so_signature o)) /\ signed_names E r headers names
    /\ s_signed_headers (so_signature o) = names
    /\ s_algorithm (so_signature o) = r_algorithm E r
    /\ s_body_hash (so_signature o) = hash_fn C (alg_hash (r_algorithm E r)) hashed
    /\ s_canonicalization (so_signature o) = r_canonicalization E r
    /\ s_domain (so_signature o) = r_domain E r /\ s_selector (so_signature o) = r_selector E r
    /\ s_identity (so_signature o) = r_identity E r
    /\ s_timestamp (so_signature o) = time_of E r (clock j)
    /\ s_expiration (so_signature o) = match r_valid_duration E r with
         | Some d => Some (N.min (match time_of E r (clock j) with Some t => t | None => clock j end + d) (2^64 - 1))
         | None => None
         end
    /\ request_typed E r.
Proof.
  intros headers chunks clock j r o H. destruct (signed_output_of _ _ _ _ _ _ _ H) as (pre & post & n & b64 & O).
  destruct (oo_u _ _ _ _ _ _ _ _ _ _ _ _ O) as (hashed & l & names & copied & B & Nm & _ & X).
  exists hashed, names. destruct (so_signature o). unfold unsigned_part in X. cbn in *. injection X. intros. subst.
  split; [exact B|]. split; [exact Nm|]. repeat (split; [reflexivity|]). apply (oo_typed _ _ _ _ _ _ _ _ _ _ _ _ O).
Qed.

Lemma body_signed : forall r config body hashed l sig, signed_body E r body hashed l -> content_covered E r config body ->
  s_body_length sig = l -> s_algorithm sig = r_algorithm E r -> s_canonicalization sig = r_canonicalization E r ->
  s_body_hash sig = hash_fn C (alg_hash (r_algorithm E r)) hashed -> body_matches E config sig body.
Proof.
  intros r config body hashed l sig B Cov L A Cn H. unfold body_matches. rewrite L, A, Cn, H. inversion B; subst; cbv zeta.
  - reflexivity.
  - exists cb, []. rewrite app_nil_r. auto.
  - exists hashed, b. split; [assumption|]. split; [reflexivity|]. split; [reflexivity|]. intros F. specialize (Cov F _ H0).
    rewrite H2, app_length in Cov. apply length_zero_iff_nil. lia.
Qed.

Theorem end_to_end : forall w config headers above below chunks chunks' clock j r o answer rs res,
  idna_ok idna -> crypto_nonempty C ->
  readable_output E headers chunks clock j r o ->
  let field := signature_field o in
  let extra := above ++ field :: below in
  not_oversigned (s_signed_headers (so_signature o)) headers extra ->
  concat chunks' = concat chunks ->
  signature_good E (extra ++ headers) config (w_clock w (length above)) (so_signature o) ->
  content_covered E r config (concat chunks) ->
  key_published E r config answer ->
  evaluation E w (extra ++ headers) config chunks' answer rs ->
  result_for config (extra ++ headers) rs (length above) (fst field) (snd field) res ->
  vr_status res = Success /\ vr_index res = length above
  /\ exists sig', vr_signature res = Some sig' /\ written_signature idna (r_format E r) (so_signature o) sig'.
Proof.
  intros w config headers above below chunks chunks' clock j r o answer rs res IO NE (HO & HR & HT & HZ & HX) field extra OV EB G Cov
    (d & sl & txts & txt & D & Sl & A & T & (rt & k & key & R1 & R2 & R3 & R4 & R5 & R6 & R7 & R8 & R9)) Ev RF.
  destruct (signed_output_of _ _ _ _ _ _ _ HO) as (pre & post & n & b64 & O).
  pose proof (output_scalar _ _ _ _ _ _ _ _ _ _ _ _ IO O HR HX) as Sc.
  destruct (output_parses E _ _ _ _ _ _ _ _ _ _ _ IO NE O HR HT HZ) as (sig' & P & W).
  destruct (request_parts _ _ _ _ _ _ HO) as (hashed & names & Bd & _ & _ & Qa & Qb & Qc & Qd & Qs & Qi & _ & _ & (Td & Ts & Ti & _)).
  destruct (evaluation_verdict _ _ _ _ _ _ _ _ _ _ _ Ev RF) as (V & Hn & Hh & _).
  assert (signature_read E (snd field) (so_header_value o) (Ok sig')) as SR by (apply sgr_text; [exact Sc|reflexivity|exact P]).
  pose proof W as (W1 & W2 & W3 & W4 & W5 & W6 & W7 & W8 & W9 & W10 & W11 & _).
  rewrite Qd in W5. rewrite Qs in W9.
  assert (signature_good E (extra ++ headers) config (w_clock w (length above)) sig') as G'.
  { unfold signature_good, length_unusable in *. rewrite W1, W6, W8, W10, W11. exact G. }
  assert (lookup_pair E sig' (d, sl)) as LP.
  { split; cbn [fst snd].
    - rewrite <- D. eapply (written_domain _ _ _ _ _ IO Td); exact W5.
    - rewrite <- Sl. eapply (written_domain _ _ _ _ _ IO Ts); exact W9. }
  assert (record_accepts E (extra ++ headers) config sig' (fst field) (so_header_value o) txt k) as RA.
  { exists rt, key. rewrite W1, Qa. split; [exact R1|]. split; [exact R2|]. split; [exact R3|]. split; [exact R4|]. split; [exact R5|].
    split.
    - intros F i' Hi'. rewrite Hi', Qi in W7. destruct (r_identity E r) as [i|] eqn:Ei; [|destruct W7]. destruct W7 as [_ W7].
      destruct (Ti i eq_refl) as [Tdi _]. destruct (written_domain _ _ _ _ _ IO Tdi W7) as (_ & -> & _).
      destruct (written_domain _ _ _ _ _ IO Td W5) as (_ & -> & _). apply (R6 F i eq_refl).
    - split; [exact R7|]. split; [exact R8|]. unfold signed_digest. rewrite W1, W4, W6, W2. rewrite hash_input_above by assumption.
      rewrite <- Qa. exact (output_verifies _ _ _ _ _ _ _ IO HO R9). }
  assert (body_matches E config sig' (concat chunks')) as BM.
  { rewrite EB. eapply body_signed; [exact Bd|exact Cov|exact W8|congruence|congruence|congruence]. }
  assert (vr_status res = Success) as OK.
  { apply (verdict_success _ _ _ _ _ _ _ _ _ _ Hh Hn V). exists sig', (so_header_value o), (d, sl), txts, txt, k. auto 10. }
  split; [exact OK|]. destruct (verdict_success_record _ _ _ _ _ _ _ _ _ _ V OK) as (s2 & sig2 & _ & _ & _ & _ & S1 & _ & S2 & _).
  assert (sig2 = sig') as -> by (destruct (signature_read_det _ _ _ _ _ _ S1 SR) as [_ X]; congruence).
  split; [|exists sig'; auto]. destruct V; reflexivity.
Qed.

(** ** Default policy *)

Lemma auto_names : forall n headers fs, In (lower n) signed_by_default ->
  selected (fun f : HeaderField => In (lower (fst f)) signed_by_default) headers fs ->
  occurrences n (rev (map fst fs)) = occurrences n (map fst headers).
Proof.
  intros n headers fs Hn H. rewrite <- map_rev, !occurrences_fields.
  assert (forall (p : HeaderField -> bool) l, length (filter p (rev l)) = length (filter p l)) as X.
  { intros p l. induction l as [|a l IH]; [reflexivity|]. cbn [rev]. rewrite filter_app, app_length, IH. cbn [filter].
    destruct (p a); cbn [length]; lia. }
  rewrite X. induction H; [reflexivity| |]; cbn [filter].
  - destruct (same_nameb (fst x) n); cbn [length]; congruence.
  - destruct (same_nameb (fst x) n) eqn:Z; [|assumption]. exfalso. apply H. apply same_nameb_iff in Z. rewrite Z. exact Hn.
Qed.

Theorem default_good : forall headers extra chunks clock j r o now, signed_output E headers chunks clock j r o ->
  r_header_selection E r = Auto ->
  (forall f, In f extra -> ~ same_name (fst f) (lit "From")) ->
  (forall l, s_body_length (so_signature o) = Some l -> l <= env_usize_max E) ->
  r_algorithm E r <> RsaSha1 ->
  in_time E r (clock j) default_config now ->
  signature_good E (extra ++ headers) default_config now (so_signature o).
Proof.
  intros headers extra chunks clock j r o now HO Au NF HL HA [T1 T2].
  destruct (request_parts _ _ _ _ _ _ HO) as (hashed & names & _ & Nm & Qn & Qa & _ & _ & _ & _ & _ & Qt & Qx & _).
  unfold signature_good. cbv zeta. change (seconds default_config now) with now.
  split; [intros n []|]. split; [|split; [|split; [|split]]].
  - intros n [<-|[]]. rewrite Qn. inversion Nm as [fs _ Sel E1|]; [|congruence]. subst.
    rewrite map_app. unfold occurrences at 1. rewrite filter_app, app_length.
    assert (filter (fun n => same_nameb n (lit "From")) (map fst extra) = []) as ->.
    { clear - NF. induction extra as [|f ex IH]; [reflexivity|]. cbn [map filter]. destruct (same_nameb (fst f) (lit "From")) eqn:Z.
      - exfalso. apply (NF f); [left; reflexivity|]. apply same_nameb_iff. exact Z.
      - apply IH. intros g Hg. apply NF. right. exact Hg. }
    rewrite (auto_names (lit "From") headers fs); [|left; reflexivity|exact Sel]. unfold occurrences. cbn [length]. lia.
  - exact HL.
  - intros _ x. rewrite Qx. destruct (r_valid_duration E r) as [dur|] eqn:Ed; [|discriminate]. intros [= <-]. apply (T2 dur eq_refl).
  - intros _ t. rewrite Qt. intros Ht. apply (T1 t Ht).
  - intros _. rewrite Qa. destruct (r_algorithm E r); cbn; congruence.
Qed.

(** ** A fresh request *)

Lemma fresh_in_time : forall d s alg key signed now, signed <= now + 300 -> now < signed + 432000 + 300 -> now < 2^64 - 1 ->
  in_time E (request_new E d s alg key) signed default_config now.
Proof.
  intros d s alg key signed now H1 H2 H3. unfold in_time, time_of. cbn [request_new r_timestamp r_valid_duration].
  change (cf_time_tolerance default_config) with 300. split.
  - intros t X. injection X as <-. exact H1.
  - intros dur X. injection X as <-. change (60 * 60 * 24 * 5) with 432000. lia.
Qed.

Lemma fresh_length : forall d s alg key headers chunks clock j o,
  signed_output E headers chunks clock j (request_new E d s alg key) o -> s_body_length (so_signature o) = None.
Proof.
  intros d s alg key headers chunks clock j o H. destruct (request_parts _ _ _ _ _ _ H) as (hashed & names & B & _).
  remember (s_body_length (so_signature o)) as l. inversion B; try reflexivity; discriminate.
Qed.

Lemma fresh_readable : forall d s alg key headers chunks clock j o, Forall is_scalar d -> Forall is_scalar s -> alg <> RsaSha1 ->
  clock j < 2^64 - 1 -> signed_output E headers chunks clock j (request_new E d s alg key) o ->
  readable_output E headers chunks clock j (request_new E d s alg key) o.
Proof.
  intros d s alg key headers chunks clock j o Hd Hs Ha Hc H. split; [exact H|]. split; [|split; [lia|split; [|constructor]]].
  - constructor; cbn [request_new r_domain r_selector r_identity r_algorithm r_ext_tags].
    + split; [exact Hd|]. split; [exact Hs|]. discriminate.
    + discriminate.
    + intros X. contradiction.
    + intros [].
    + intros t X. injection X as <-. split; [lia|]. intros _. exact Hc.
  - destruct (signed_output_of _ _ _ _ _ _ _ H) as (pre & post & n & b64 & O).
    destruct (oo_u _ _ _ _ _ _ _ _ _ _ _ _ O) as (hashed & l & names & copied & _ & _ & Cp & X).
    unfold copied_headers in Cp. cbn [request_new r_copy_headers] in Cp. subst copied.
    apply (f_equal u_copied_headers) in X. unfold unsigned_part in X. cbn in X. unfold copied_names_safe. rewrite X. constructor.
Qed.

Lemma auto_not_oversigned : forall headers names r f, signed_names E r headers names -> r_header_selection E r = Auto ->
  same_name (fst f) (lit "DKIM-Signature") -> not_oversigned names headers [f].
Proof.
  intros headers names r f Nm Au Hf n g Hn [<-|[]] S. exfalso. inversion Nm as [fs _ Sel E1|]; [|congruence]. subst.
  apply In_rev in Hn. apply in_map_iff in Hn as (h & Hh & Hin).
  assert (In (lower (fst h)) signed_by_default) as X.
  { clear - Sel Hin. induction Sel; [destruct Hin| |auto]. destruct Hin as [<-|Hin]; auto. }
  rewrite Hh in X. unfold same_name in *. rewrite <- S, Hf in X. apply (in_map (leqb (lower (lit "DKIM-Signature")))) in X.
  rewrite leqb_refl in X. apply in_map_iff in X as (y & Y1 & Y2). revert Y1.
  assert (forallb (fun y => negb (leqb (lower (lit "DKIM-Signature")) y)) signed_by_default = true) as Z by (vm_compute; reflexivity).
  rewrite forallb_forall in Z. specialize (Z y Y2). intros K. rewrite K in Z. discriminate.
Qed.

Lemma not_from : forall f : HeaderField, same_name (fst f) (lit "DKIM-Signature") -> ~ same_name (fst f) (lit "From").
Proof. unfold same_name. intros f H K. rewrite H in K. vm_compute in K. discriminate. Qed.

Lemma field_named : forall headers chunks clock j r o, idna_ok idna -> readable_output E headers chunks clock j r o ->
  same_name (so_header_name o) (lit "DKIM-Signature") /\ header_fields [signature_field o].
Proof.
  intros headers chunks clock j r o IO (H & HR & HT & HZ & HX). destruct (signed_output_of _ _ _ _ _ _ _ H) as (pre & post & n & b64 & O).
  destruct (output_field E _ _ _ _ _ _ _ _ _ _ _ IO O) as (_ & B & F1 & F2 & _). split.
  - rewrite B. apply (oo_format _ _ _ _ _ _ _ _ _ _ _ _ O).
  - constructor; [|constructor]. split; [exact F1|]. split; [exact F2|]. apply as_bytes_bytes.
    exact (output_scalar _ _ _ _ _ _ _ _ _ _ _ _ IO O HR HX).
Qed.

Theorem auto_end_to_end : forall w headers chunks chunks' clock j r o answer rs, idna_ok idna -> crypto_nonempty C ->
  readable_output E headers chunks clock j r o ->
  r_header_selection E r = Auto -> r_algorithm E r <> RsaSha1 ->
  (forall l, s_body_length (so_signature o) = Some l -> l <= env_usize_max E) ->
  in_time E r (clock j) default_config (w_clock w 0) ->
  concat chunks' = concat chunks ->
  key_published E r default_config answer ->
  evaluation E w (signature_field o :: headers) default_config chunks' answer rs ->
  exists res rest, rs = res :: rest /\ vr_index res = 0%nat /\ vr_status res = Success.
Proof.
  intros w headers chunks chunks' clock j r o answer rs IO NE R Au Al L T B K Ev.
  pose proof (proj1 R) as HO. destruct (field_named _ _ _ _ _ _ IO R) as [Fn _].
  destruct (request_parts _ _ _ _ _ _ HO) as (hashed & names & _ & Nm & Qn & _).
  assert (nth_error (examined default_config (signature_field o :: headers)) 0 = Some (0%nat, signature_field o)) as X.
  { unfold examined. change (cf_max_signatures default_config) with 10%nat. cbn [signature_fields signature_field fst].
    apply same_nameb_iff in Fn. rewrite Fn. reflexivity. }
  pose proof (evaluation_verdicts _ _ _ _ _ _ _ Ev) as F. destruct rs as [|res rest].
  - inversion F as [Y|]. rewrite <- Y in X. discriminate.
  - exists res, rest. split; [reflexivity|].
    destruct (end_to_end w default_config headers [] [] chunks chunks' clock j r o answer (res :: rest) res IO NE R) as (S & I & _); try assumption.
    + rewrite Qn. exact (auto_not_oversigned _ _ _ (signature_field o) Nm Au Fn).
    + apply (default_good headers [signature_field o] chunks clock j r o); try assumption. intros f [<-|[]]. apply not_from. exact Fn.
    + intros Y. discriminate Y.
    + exists 0%nat. split; [exact X|reflexivity].
    + auto.
Qed.

Theorem fresh_end_to_end : forall w d s alg key headers chunks chunks' clock j o zone, idna_ok idna -> crypto_nonempty C ->
  let r := request_new E d s alg key in
  Forall is_scalar d -> Forall is_scalar s -> alg <> RsaSha1 ->
  signed_output E headers chunks clock j r o ->
  world_ok w -> steady (w_resolver w) zone -> key_published E r default_config (fun p => zone (key_name p)) ->
  concat chunks' = concat chunks ->
  let signed := clock j in let now := w_clock w 0 in
  signed < 2^64 - 1 -> signed <= now + 300 -> now < signed + 432000 + 300 -> now < 2^64 - 1 ->
  exists res rest, verify_message E w (signature_field o :: headers) default_config chunks' = Val (Some (res :: rest))
    /\ vr_index res = 0%nat /\ vr_status res = Success.
Proof.
  intros w d s alg key headers chunks chunks' clock j o zone IO NE r Hd Hs Ha HO W S K B signed now T1 T2 T3 T4.
  pose proof (fresh_readable d s alg key _ _ _ _ _ Hd Hs Ha T1 HO) as HR. destruct (field_named _ _ _ _ _ _ IO HR) as [Fn Ff].
  assert (header_fields (signature_field o :: headers)) as Hf.
  { inversion Ff. constructor; [assumption|]. apply (proj1 (proj2 HO)). }
  destruct (verify_message_cases E w _ default_config chunks' W Hf) as [[X _]|(_ & rs & V & _)].
  - exfalso. revert X. unfold examined. change (cf_max_signatures default_config) with 10%nat. cbn [signature_fields signature_field fst].
    apply same_nameb_iff in Fn. rewrite Fn. discriminate.
  - pose proof (steady_evaluation _ _ _ _ _ _ _ W Hf S V) as Ev.
    assert (forall l, s_body_length (so_signature o) = Some l -> l <= env_usize_max E) as L
      by (intros l; unfold r in HO; rewrite (fresh_length _ _ _ _ _ _ _ _ _ HO); discriminate).
    pose proof (fresh_in_time d s alg key signed now T2 T3 T4) as T.
    destruct (auto_end_to_end w headers chunks chunks' clock j r o _ rs IO NE HR eq_refl Ha L T B K Ev) as (res & rest & -> & I).
    exists res, rest. auto.
Qed.

Theorem fresh_policy : forall d s alg key headers extra chunks clock j o now,
  signed_output E headers chunks clock j (request_new E d s alg key) o ->
  (forall f, In f extra -> ~ same_name (fst f) (lit "From")) ->
  alg <> RsaSha1 -> now < 2^64 - 1 -> clock j < 2^64 - 432001 ->
  (signature_good E (extra ++ headers) default_config now (so_signature o)
   <-> clock j <= now + 300 /\ now < clock j + 432000 + 300).
Proof.
  intros d s alg key headers extra chunks clock j o now H NF Ha Hn Hc. split.
  - destruct (request_parts _ _ _ _ _ _ H) as (hashed & names & _ & _ & _ & _ & _ & _ & _ & _ & _ & Qt & Qx & _).
    intros (_ & _ & _ & G1 & G2 & _). change (seconds default_config now) with now in *.
    specialize (G1 eq_refl _ Qx). specialize (G2 eq_refl _ Qt).
    change (cf_time_tolerance default_config) with 300 in *. cbn [request_new time_of r_timestamp] in G1.
    change (60 * 60 * 24 * 5) with 432000 in G1. split; [exact G2|]. destruct G1 as [G1 _]. lia.
  - intros [H1 H2]. eapply default_good; try eassumption; [reflexivity| |apply fresh_in_time; assumption].
    intros l. rewrite (fresh_length _ _ _ _ _ _ _ _ _ H). discriminate.
Qed.

End WithEnv.
