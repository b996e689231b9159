(** Proofs about agreement with verifiers that follow RFC 6376 to the letter. *)

From Coq Require Import String List Permutation.
From Verif Require Import Base Utf8 Canon BodyHash Header Domain Signature KeyRecord Crypto TagList Format Sign Verify
  SpecText SpecCanon SpecHash SpecHeader SpecTag SpecDomain SpecSig SpecRecord SpecFormat SpecSign SpecOutput SpecVerify SpecEnd SpecDkim SpecInterop
  TagListProofs SigProofs RecordProofs OutputProofs OutputParse OriginalProofs OutputChars VerifyProofs VerifyKeys VerifyRun VerifyFacts
  WidthProofs EndProofs DkimProofs Lib.
Import ListNotations.
Open Scope N_scope.

(** for irregular bodies the forms differ by one line break at the end *)
Lemma irregular_forms : forall alg body, ~ regular_body alg body ->
  rfc_body alg body = canonical_body alg body ++ [13; 10] \/ canonical_body alg body = rfc_body alg body ++ [13; 10].
Proof.
  intros [] body H; cbn [regular_body canonical_body rfc_body] in *.
  - left. unfold impl_simple_body. destruct (only_crlfs body) eqn:Q; [|contradiction H; reflexivity].
    unfold only_crlfs in Q. apply andb_prop in Q as [_ Q]. unfold rfc_simple_body. destruct (strip_trailing_crlfs body); [reflexivity|discriminate].
  - right. unfold impl_relaxed_body. destruct (ends_in_wsp_line body) eqn:Q; [|contradiction H]; reflexivity.
Qed.

Lemma same_prefix : forall (a b x : list byte) l, (b = a ++ x \/ a = b ++ x) -> (l <= length a)%nat -> (l <= length b)%nat ->
  firstn l a = firstn l b.
Proof.
  intros a b x l [->| ->] H1 H2; rewrite firstn_app.
  - replace (l - length a)%nat with 0%nat by lia. cbn [firstn]. rewrite app_nil_r. reflexivity.
  - replace (l - length b)%nat with 0%nat by lia. cbn [firstn]. rewrite app_nil_r. reflexivity.
Qed.

Lemma regular_dec : forall alg body, regular_body alg body \/ ~ regular_body alg body.
Proof. intros [] body; cbn [regular_body]; [destruct (only_crlfs body)|destruct (ends_in_wsp_line body)]; auto; right; discriminate. Qed.

Section WithEnv.
Variable E : Env.
Notation C := (env_crypto E).
Notation idna := (env_idna E).

Lemma body_part : forall (canonical : CanonAlg -> list byte -> list byte) sig body covered rest,
  canonical (c_body (s_canonicalization sig)) body = covered ++ rest ->
  covered = firstn (length covered) (canonical (c_body (s_canonicalization sig)) body)
  /\ (length covered <= length (canonical (c_body (s_canonicalization sig)) body))%nat.
Proof.
  intros canonical sig body covered rest ->. rewrite firstn_app, Nat.sub_diag, firstn_all, app_nil_r, app_length. split; [reflexivity|lia].
Qed.

(** ** Bodies *)

Lemma hashed_other : forall c1 c2 config sig body rest,
  let alg := c_body (s_canonicalization sig) in
  (c2 alg body = c1 alg body ++ [13; 10] \/ c1 alg body = c2 alg body ++ [13; 10]) ->
  body_hashed E c1 sig body rest -> (cf_forbid_unsigned_content config = true -> rest = []) ->
  ((exists rest', body_hashed E c2 sig body rest' /\ (cf_forbid_unsigned_content config = true -> rest' = [])) <-> agrees E c1 c2 config sig body).
Proof.
  intros c1 c2 config sig body rest alg D (covered & H1 & H2 & H3) F. unfold agrees. fold alg. fold alg in H1.
  destruct (body_part c1 sig body covered rest H1) as [P1 P2]. fold alg in P1, P2.
  destruct (s_body_length sig) as [l|] eqn:L; split.
  - intros (rest' & (cov' & B1 & B2 & B3) & F'). fold alg in B1. rewrite L in B3.
    destruct (body_part c2 sig body cov' rest' B1) as [P3 P4]. fold alg in P3, P4. split; [|split; lia].
    destruct (cf_forbid_unsigned_content config); [|reflexivity]. exfalso. rewrite (F eq_refl), app_nil_r in H1. rewrite (F' eq_refl), app_nil_r in B1.
    assert (length (c1 alg body) = length (c2 alg body)) as X by (rewrite H1, B1; lia).
    destruct D as [D|D]; rewrite D, app_length in X; cbn [length] in X; lia.
  - intros (Fb & L1 & L2). exists (skipn (N.to_nat l) (c2 alg body)). rewrite Fb. split; [|discriminate].
    exists (firstn (N.to_nat l) (c2 alg body)). fold alg. rewrite L, firstn_skipn. split; [reflexivity|]. split; [|rewrite firstn_length; lia].
    rewrite <- (same_prefix (c1 alg body) (c2 alg body) [13; 10] (N.to_nat l) D) by lia.
    replace (N.to_nat l) with (length covered) by lia. rewrite <- P1. exact H2.
  - intros (rest' & (cov' & B1 & B2 & B3) & F'). fold alg in B1. rewrite L in B3. subst rest rest'. rewrite app_nil_r in H1, B1. congruence.
  - intros X. exists []. split; [|reflexivity]. exists (c2 alg body). fold alg. rewrite L, app_nil_r. subst rest. rewrite app_nil_r in H1.
    split; [reflexivity|]. split; [|reflexivity]. rewrite <- X, H1. exact H2.
Qed.

(** a text describes no more than one signature *)
Lemma valid_sig : forall c1 c2 zone zone' config config' now now' headers headers' body body' name name' value sig sig' k k',
  valid_dkim E c1 zone config now headers body name value sig k ->
  valid_dkim E c2 zone' config' now' headers' body' name' value sig' k' -> sig = sig'.
Proof.
  intros c1 c2 zone zone' config config' now now' headers headers' body body' name name' value sig sig' k k'
    (s & tags & ? & ? & ? & ? & H1 & H2 & H3 & H4 & _) (s' & tags' & ? & ? & ? & ? & H1' & H2' & H3' & H4' & _).
  assert (signature_read E value s (Ok sig)) as R by (apply read_iff; eauto).
  assert (signature_read E value s' (Ok sig')) as R' by (apply read_iff; eauto).
  destruct (signature_read_det _ _ _ _ _ _ R R') as [_ X]. congruence.
Qed.

Lemma valid_other : forall c1 c2 zone config now headers body name value sig k,
  let alg := c_body (s_canonicalization sig) in
  (c2 alg body = c1 alg body ++ [13; 10] \/ c1 alg body = c2 alg body ++ [13; 10]) ->
  valid_dkim E c1 zone config now headers body name value sig k ->
  ((exists sig' k', valid_dkim E c2 zone config now headers body name value sig' k') <-> agrees E c1 c2 config sig body).
Proof.
  intros c1 c2 zone config now headers body name value sig k alg D
    V. pose proof V as (s & tags & txt & key & data & rest & H1 & H2 & H3 & H4 & H5 & H6 & H7 & H8 & H9 & H10 & H11).
  rewrite <- (hashed_other c1 c2 config sig body rest D H10 H11). split.
  - intros (sig' & k' & V'). rewrite <- (valid_sig _ _ _ _ _ _ _ _ _ _ _ _ _ _ _ _ _ _ _ V V') in V'.
    destruct V' as (s' & tags' & txt' & key' & data' & rest' & H). decompose [and] H. eauto.
  - intros (rest' & B1 & B2). exists sig, k, s, tags, txt, key, data, rest'. auto 15.
Qed.

Lemma agrees_sym : forall c1 c2 config sig body, agrees E c1 c2 config sig body <-> agrees E c2 c1 config sig body.
Proof. intros c1 c2 config sig body. unfold agrees. destruct (s_body_length sig); [tauto|split; congruence]. Qed.

(** ** Verifiers *)

Section Two.
Variables (w : World) (headers : list HeaderField) (config : Config) (chunks : list (list byte)).
Variables (zone : str -> IoResult (list (IoResult (list byte)))) (rs : list VerificationResult) (i : nat) (name : str) (value : list byte) (r : VerificationResult).
Hypothesis W : world_ok w.
Hypothesis St : steady (w_resolver w) zone.
Hypothesis Hh : header_fields headers.
Hypothesis M : verify_message E w headers config chunks = Val (Some rs).
Hypothesis RF : result_for config headers rs i name value r.

Notation valid := (valid_dkim E rfc_body zone config (w_clock w i) headers (concat chunks) name value).

Theorem success_other : forall sig, vr_status r = Success -> vr_signature r = Some sig ->
  ~ regular_body (c_body (s_canonicalization sig)) (concat chunks) ->
  ((exists sig' k, valid sig' k) <-> agrees E canonical_body rfc_body config sig (concat chunks)).
Proof.
  intros sig S Sg Ir. destruct (success_exact _ _ _ _ _ _ _ _ _ _ _ W St Hh M RF) as (_ & X & _).
  destruct (X S) as (sig0 & k & Q1 & _ & V). rewrite Sg in Q1. injection Q1 as <-.
  exact (valid_other _ rfc_body _ _ _ _ _ _ _ _ _ (irregular_forms _ _ Ir) V).
Qed.

Theorem valid_accepted : forall sig k, valid sig k -> ~ regular_body (c_body (s_canonicalization sig)) (concat chunks) ->
  (vr_status r = Success <-> agrees E canonical_body rfc_body config sig (concat chunks)).
Proof.
  intros sig k V Ir. destruct (success_exact _ _ _ _ _ _ _ _ _ _ _ W St Hh M RF) as (X & _). rewrite X, agrees_sym.
  refine (valid_other rfc_body canonical_body _ _ _ _ _ _ _ _ _ _ V). apply or_comm. apply irregular_forms. exact Ir.
Qed.

End Two.

(** ** Signatures made here *)

Theorem made_signed : forall headers chunks clock j r o, idna_ok idna -> crypto_nonempty C ->
  readable_output E headers chunks clock j r o ->
  exists sig, written_signature idna (r_format E r) (so_signature o) sig
    /\ signed_by E canonical_body (r_signing_key E r) headers (concat chunks) (so_header_name o) (so_header_value o) sig.
Proof.
  intros headers chunks clock j r o IO NE (HO & HR & HT & HZ & HX).
  destruct (signed_output_of _ _ _ _ _ _ _ HO) as (pre & post & n & b64 & O).
  pose proof (output_scalar _ _ _ _ _ _ _ _ _ _ _ _ IO O HR HX) as Sc.
  destruct (output_parses E _ _ _ _ _ _ _ _ _ _ _ IO NE O HR HT HZ) as (sig' & P & Wr).
  destruct (request_parts _ _ _ _ _ _ _ HO) as (hashed & names & Bd & _ & _ & Qa & Qb & Qc & _).
  exists sig'. split; [exact Wr|]. destruct Wr as (W1 & W2 & W3 & W4 & _ & W6 & _ & W8 & _).
  apply sig_ok_iff in P as (tags & T & S). apply tags_of_iff in T.
  assert (exists rest, body_hashed E canonical_body sig' (concat chunks) rest) as (rest & B).
  { unfold body_hashed. rewrite W8, W1, W3, W4, Qa, Qb, Qc. inversion Bd; subst.
    - exists []. eexists. rewrite app_nil_r. split; [reflexivity|auto].
    - exists []. eexists. rewrite app_nil_r. split; [reflexivity|auto].
    - exists b, hashed. auto. }
  eexists tags, _, rest. split; [exact Sc|]. split; [exact T|]. split; [exact S|]. split; [apply (signed_data_iff E); [exact T|exact S|reflexivity]|].
  split; [|exact B]. rewrite W1, W2, W4, W6. rewrite (output_original E _ _ _ _ _ _ _ _ _ _ _ IO O).
  pose proof (oo_sign _ _ _ _ _ _ _ _ _ _ _ _ O) as Sg.
  replace (so_header_name o) with (of_header_name (r_format E r)) by (rewrite (oo_o _ _ _ _ _ _ _ _ _ _ _ _ O); reflexivity).
  rewrite <- Qa in Sg. exact Sg.
Qed.

Lemma signed_ext : forall c1 c2 key headers body name s sig,
  c1 (c_body (s_canonicalization sig)) body = c2 (c_body (s_canonicalization sig)) body ->
  signed_by E c1 key headers body name s sig -> signed_by E c2 key headers body name s sig.
Proof.
  intros c1 c2 key headers body name s sig H (tags & data & rest & H1 & H2 & H3 & H4 & H5 & H6).
  exists tags, data, rest. repeat (split; [assumption|]). eapply body_hashed_ext; eassumption.
Qed.

Theorem output_valid : forall config headers extra chunks clock j r o zone now,
  idna_ok idna -> crypto_nonempty C ->
  readable_output E headers chunks clock j r o ->
  header_fields (extra ++ headers) ->
  not_oversigned (s_signed_headers (so_signature o)) headers extra ->
  signature_good E (extra ++ headers) config now (so_signature o) ->
  content_covered E r config (concat chunks) ->
  key_published E r config (fun p => zone (key_name p)) ->
  exists sig k, written_signature idna (r_format E r) (so_signature o) sig
    /\ valid_dkim E canonical_body zone config now (extra ++ headers) (concat chunks) (so_header_name o) (as_bytes (so_header_value o)) sig k.
Proof.
  intros config headers extra chunks clock j r o zone now IO NE RO Hh OV G Cov
    (d & sl & txts & txt & D & Sl & A & T & (rt & k & key & R1 & R2 & R3 & R4 & R5 & R6 & R7 & R8 & R9)).
  destruct (made_signed _ _ _ _ _ _ IO NE RO) as (sig & Wr & Sg). exists sig, k. split; [exact Wr|].
  destruct RO as (HO & _).
  destruct (request_parts _ _ _ _ _ _ _ HO) as (hashed & names & Bd & _ & _ & Qa & Qb & Qc & Qd & Qs & Qi & _ & _ & (Td & Ts & Ti & _)).
  destruct Wr as (W1 & W2 & W3 & W4 & W5 & W6 & W7 & W8 & W9 & W10 & W11 & _). rewrite Qd in W5. rewrite Qs in W9.
  inversion R1 as [bs Sb Eb| |]; subst.
  eapply (signed_valid E canonical_body _ key); [exact Sg|exact Hh|rewrite W6; exact OV| | | | |exact R9].
  - unfold signature_good, length_unusable in *. rewrite W1, W6, W8, W10, W11. exact G.
  - intros F. assert (body_matches E config sig (concat chunks)) as BM by (eapply body_signed; [exact Bd|exact Cov|exact W8|congruence|congruence|congruence]).
    apply body_hashed_iff in BM as (rest & B1 & B2). rewrite (B2 F) in B1. exact B1.
  - exists d, sl, txts. destruct (written_domain _ _ _ _ _ IO Td W5) as (_ & -> & _). destruct (written_domain _ _ _ _ _ IO Ts W9) as (_ & -> & _).
    split; [exact D|]. split; [exact Sl|]. split; [exact A|exact T].
  - unfold key_for. rewrite W1, Qa. apply record_ok_iff in R2 as (ts & Q & R). split; [exists rt, ts; rewrite tags_of_iff; auto|].
    split; [exact R3|]. split; [exact R4|]. split; [exact R5|]. split; [|auto].
    intros F i' Hi'. rewrite Hi', Qi in W7. destruct (r_identity E r) as [i|] eqn:Ei; [|destruct W7]. destruct W7 as [_ W7].
    destruct (Ti i eq_refl) as [Tdi _]. destruct (written_domain _ _ _ _ _ IO Tdi W7) as (_ & -> & _).
    destruct (written_domain _ _ _ _ _ IO Td W5) as (_ & -> & _). apply (R6 F i eq_refl).
Qed.

Theorem output_valid_rfc : forall config headers extra chunks clock j r o zone now,
  idna_ok idna -> crypto_nonempty C ->
  readable_output E headers chunks clock j r o ->
  header_fields (extra ++ headers) ->
  not_oversigned (s_signed_headers (so_signature o)) headers extra ->
  signature_good E (extra ++ headers) config now (so_signature o) ->
  content_covered E r config (concat chunks) ->
  key_published E r config (fun p => zone (key_name p)) ->
  ((exists sig k, valid_dkim E rfc_body zone config now (extra ++ headers) (concat chunks) (so_header_name o) (as_bytes (so_header_value o)) sig k)
   <-> regular_body (c_body (r_canonicalization E r)) (concat chunks)
       \/ agrees E canonical_body rfc_body config (so_signature o) (concat chunks)).
Proof.
  intros config headers extra chunks clock j r o zone now IO NE RO Hh OV G Cov K.
  destruct (output_valid _ _ _ _ _ _ _ _ _ _ IO NE RO Hh OV G Cov K) as (sig & k & Wr & V).
  destruct RO as (HO & _). destruct (request_parts _ _ _ _ _ _ _ HO) as (_ & _ & _ & _ & _ & _ & _ & Qc & _).
  destruct Wr as (W1 & _ & _ & W4 & _ & _ & _ & W8 & _).
  assert (agrees E canonical_body rfc_body config (so_signature o) (concat chunks) <-> agrees E canonical_body rfc_body config sig (concat chunks)) as ->
    by (unfold agrees; rewrite W1, W4, W8; reflexivity).
  rewrite <- Qc, <- W4. destruct (regular_dec (c_body (s_canonicalization sig)) (concat chunks)) as [Re|Ir].
  - split; [tauto|]. intros _. exists sig, k. eapply valid_ext; [|exact V]. apply rfc_regular. exact Re.
  - rewrite (valid_other _ rfc_body _ _ _ _ _ _ _ _ _ (irregular_forms _ _ Ir) V). tauto.
Qed.

Theorem fresh_rfc : forall d s alg key headers chunks clock j o zone now, idna_ok idna -> crypto_nonempty C ->
  let r := request_new E d s alg key in
  Forall is_scalar d -> Forall is_scalar s -> alg <> RsaSha1 ->
  signed_output E headers chunks clock j r o ->
  key_published E r default_config (fun p => zone (key_name p)) ->
  clock j < 2^64 - 1 -> now < 2^64 - 1 -> clock j <= now + 300 -> now < clock j + 432000 + 300 ->
  ((exists sig k, valid_dkim E rfc_body zone default_config now (signature_field o :: headers) (concat chunks)
      (so_header_name o) (as_bytes (so_header_value o)) sig k)
   <-> only_crlfs (concat chunks) = false \/ hash_fn C Sha256 [] = hash_fn C Sha256 [13; 10]).
Proof.
  intros d s alg key headers chunks clock j o zone now IO NE r Hd Hs Ha HO K T1 T2 T3 T4.
  pose proof (fresh_readable E d s alg key _ _ _ _ _ Hd Hs Ha T1 HO) as HR.
  destruct (field_named _ _ _ _ _ _ _ IO HR) as [Fn Ff].
  assert (header_fields ([signature_field o] ++ headers)) as Hf by (inversion Ff; constructor; [assumption|apply (proj1 (proj2 HO))]).
  destruct (request_parts _ _ _ _ _ _ _ HO) as (hashed & names & _ & Nm & Qn & Qa & _ & Qc & _).
  change (signature_field o :: headers) with ([signature_field o] ++ headers).
  rewrite (output_valid_rfc default_config headers [signature_field o] chunks clock j r o zone now IO NE HR Hf).
  - unfold agrees. unfold r in HO. rewrite (fresh_length _ _ _ _ _ _ _ _ _ _ HO), Qc, Qa.
    change (c_body (r_canonicalization E r)) with Simple. change (r_algorithm E r) with alg.
    replace (alg_hash alg) with Sha256 by (destruct alg; reflexivity || congruence).
    cbn [regular_body canonical_body rfc_body]. destruct (only_crlfs (concat chunks)) eqn:Q; [|tauto].
    assert (rfc_simple_body (concat chunks) = [13; 10]) as ->.
    { pose proof Q as Q'. unfold only_crlfs in Q'. apply andb_prop in Q' as [_ Q']. unfold rfc_simple_body. destruct (strip_trailing_crlfs (concat chunks)); [reflexivity|discriminate]. }
    unfold impl_simple_body. rewrite Q. reflexivity.
  - rewrite Qn. exact (auto_not_oversigned _ _ _ _ (signature_field o) Nm eq_refl Fn).
  - eapply (default_good E); [exact HO|reflexivity| | |exact Ha|apply fresh_in_time; assumption].
    + intros f [<-|[]]. apply not_from. exact Fn.
    + intros l. unfold r in HO. rewrite (fresh_length _ _ _ _ _ _ _ _ _ _ HO). discriminate.
  - intros X. discriminate X.
  - exact K.
Qed.

End WithEnv.
