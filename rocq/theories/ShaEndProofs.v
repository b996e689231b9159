(** What is hashed and signed consists of bytes, so that any functions that compute the
    hashes of FIPS 180-4 will do: proofs for C81. *)

From Coq Require Import String List.
From Verif Require Import Base Utf8 Canon BodyHash Header TagList Domain Signature KeyRecord Crypto Format Sign Verify
  SpecText SpecCanon SpecHash SpecHeader SpecTag SpecDomain SpecSig SpecRecord SpecFormat SpecSign SpecOutput SpecVerify SpecEnd SpecDkim SpecCause SpecRsa SpecEd SpecReal SpecSha
  Concrete Utf8Proofs ConcreteProofs RsaProofs EdSpecProofs RealProofs ShaRunProofs Lib.
Import ListNotations.
Open Scope N_scope.

Local Notation bytes := (Forall is_byte).
Local Notation lines := SpecCanon.lines.

(** ** Bodies *)

Lemma lines_bytes : forall s, bytes s -> Forall bytes (lines s) /\ Forall bytes (lines (tl s)).
Proof.
  induction s as [|c s IH]; intros F; [repeat constructor|].
  inversion_clear F as [|? ? B F']. destruct (IH F') as (A1 & A2). split; [|exact A1].
  cbn [SpecCanon.lines]. destruct (lines s) as [|l ls]; [repeat constructor; exact B|].
  inversion_clear A1 as [|? ? L Ls]. destruct s as [|d s]; [constructor; [constructor; assumption|exact Ls]|].
  destruct ((c =? 13) && (d =? 10)); [constructor; [constructor|exact A2]|constructor; [constructor; assumption|exact Ls]].
Qed.

Lemma space_byte : is_byte 32.
Proof. reflexivity. Qed.

Lemma crlf_bytes : bytes [13; 10].
Proof. repeat constructor. Qed.

Lemma relaxed_line_bytes : forall l, bytes l -> bytes (relaxed_line l).
Proof.
  induction l as [|c l IH]; intros F; [constructor|]. inversion_clear F as [|? ? B F']. specialize (IH F'). cbn [relaxed_line].
  destruct (wsp c); [|constructor; assumption]. destruct (forallb wsp l); [constructor|]. destruct l as [|d l]; [constructor|].
  destruct (wsp d); [exact IH|]. constructor; [exact space_byte|exact IH].
Qed.

Lemma drop_bytes : forall ls, Forall bytes ls -> Forall bytes (drop_trailing_empty ls).
Proof.
  induction ls as [|l ls IH]; intros F; [constructor|]. inversion_clear F as [|? ? B F']. specialize (IH F'). cbn [drop_trailing_empty].
  destruct (drop_trailing_empty ls) as [|r rs]; [|constructor; assumption]. destruct l; [constructor|]. constructor; [exact B|constructor].
Qed.

Lemma relaxed_bytes : forall body, bytes body -> bytes (rfc_relaxed_body body).
Proof.
  intros body F. apply Forall_concat, Forall_map. eapply Forall_impl; [intros l L; apply Forall_app; split; [exact L|exact crlf_bytes]|].
  apply drop_bytes, Forall_map. eapply Forall_impl; [exact relaxed_line_bytes|]. apply lines_bytes. exact F.
Qed.

Lemma strip_bytes : forall s, bytes s -> bytes (strip_rev s) /\ bytes (strip_rev (tl s)).
Proof.
  induction s as [|c s IH]; intros F; [split; constructor|].
  inversion F as [|? ? B F']; subst. destruct (IH F') as (A1 & A2). split; [|exact A1].
  cbn [strip_rev]. destruct s as [|d s]; [exact F|]. destruct ((c =? 10) && (d =? 13)); [exact A2|exact F].
Qed.

Lemma simple_bytes : forall body, bytes body -> bytes (rfc_simple_body body).
Proof.
  intros body F. apply Forall_app. split; [|exact crlf_bytes]. apply Forall_rev, strip_bytes, Forall_rev, F.
Qed.

Lemma rfc_body_bytes : forall alg body, bytes body -> bytes (rfc_body alg body).
Proof. intros [|] body F; [apply simple_bytes|apply relaxed_bytes]; exact F. Qed.

Lemma canonical_body_bytes : forall alg body, bytes body -> bytes (canonical_body alg body).
Proof.
  intros [|] body F; cbn [canonical_body].
  - unfold impl_simple_body. destruct (only_crlfs body); [constructor|apply simple_bytes; exact F].
  - unfold impl_relaxed_body. destruct (ends_in_wsp_line body); [|apply relaxed_bytes; exact F].
    apply Forall_app. split; [apply relaxed_bytes; exact F|exact crlf_bytes].
Qed.

(** ** Header fields *)

Lemma words_bytes : forall s cur, bytes cur -> bytes s -> Forall bytes (words_from cur s).
Proof.
  induction s as [|c s IH]; intros cur C F; cbn [words_from]; [destruct cur; [constructor|constructor; [exact C|constructor]]|].
  inversion_clear F as [|? ? B F']. destruct (white c).
  - destruct cur; [apply IH; [constructor|exact F']|]. constructor; [exact C|]. apply IH; [constructor|exact F'].
  - apply IH; [|exact F']. apply Forall_app. split; [exact C|constructor; [exact B|constructor]].
Qed.

Lemma unwords_bytes : forall ws, Forall bytes ws -> bytes (unwords ws).
Proof.
  induction ws as [|w ws IH]; intros F; [constructor|]. inversion_clear F as [|? ? B F']. specialize (IH F').
  destruct ws as [|w' ws]; [exact B|]. change (unwords (w :: w' :: ws)) with (w ++ [32] ++ unwords (w' :: ws)).
  apply Forall_app. split; [exact B|]. constructor; [exact space_byte|exact IH].
Qed.

Lemma lower_bytes : forall s, bytes s -> bytes (lower s).
Proof.
  intros s F. apply Forall_map. eapply Forall_impl; [|exact F]. intros c B. unfold is_byte in *.
  destruct ((65 <=? c) && (c <=? 90)) eqn:E; lia.
Qed.

Lemma canonical_field_bytes : forall alg f, bytes (fst f) -> bytes (snd f) -> bytes (canonical_field alg f).
Proof.
  intros [|] (n, v) Fn Fv; cbn [fst snd] in *; cbn [canonical_field fst snd].
  - apply Forall_app. split; [exact Fn|]. constructor; [reflexivity|exact Fv].
  - unfold rfc_relaxed_header. apply Forall_app. split; [apply lower_bytes; exact Fn|]. constructor; [reflexivity|].
    apply unwords_bytes, words_bytes; [constructor|exact Fv].
Qed.

Lemma contributed_in : forall headers names before f, In f (contributed headers before names) -> In f headers.
Proof.
  intros headers names. induction names as [|n names IH]; intros before f I; [destruct I|]. cbn [contributed] in I. apply in_app_or in I.
  destruct I as [I|I]; [|exact (IH _ _ I)]. unfold kth_from_bottom in I. destruct (nth_error _ _) as [g|] eqn:G; [|destruct I].
  destruct I as [->|[]]. apply nth_error_In in G. apply filter_In in G. apply in_rev. exact (proj1 G).
Qed.

Lemma name_bytes : forall n, field_name n -> bytes n.
Proof. intros n (_ & F). eapply Forall_impl; [|exact F]. intros c C. unfold is_byte. unfold ftext in C. lia. Qed.

Lemma header_input_bytes : forall alg headers names, header_fields headers -> bytes (header_hash_input alg headers names).
Proof.
  intros alg headers names H. apply Forall_concat, Forall_map. apply Forall_forall. intros f I. apply contributed_in in I.
  unfold header_fields in H. rewrite Forall_forall in H. destruct (H f I) as (A & _ & B).
  apply Forall_app. split; [|exact crlf_bytes]. apply canonical_field_bytes; [apply name_bytes; exact A|exact B].
Qed.

Lemma signed_data_bytes : forall headers sig name s tags data, header_fields headers -> field_name name -> Forall is_scalar s ->
  signed_data headers sig name s tags data -> bytes data.
Proof.
  intros headers sig name s tags data H N S (v & s' & _ & (a & f1 & f2 & f3 & f4 & c & _ & _ & _ & _ & _ & _ & -> & ->) & ->).
  apply Forall_app. split; [apply header_input_bytes; exact H|]. apply canonical_field_bytes; [apply name_bytes; exact N|]. cbn [snd].
  apply as_bytes_bytes. repeat rewrite ?Forall_app in *. intuition.
Qed.

(** ** Other functions with the same hashes *)

Lemma computes_sha256 : forall f, computes sha256_digest f -> forall msg, bytes msg -> f msg = sha256 msg.
Proof. intros f H msg F. apply sha256_spec; [exact F|]. exact (H msg F). Qed.

Lemma computes_sha512 : forall f, computes sha512_digest f -> forall msg, bytes msg -> f msg = sha512 msg.
Proof. intros f H msg F. apply sha512_spec; [exact F|]. exact (H msg F). Qed.

Lemma computes_sha1 : forall f, computes sha1_digest f -> forall msg, bytes msg -> f msg = sha1 msg.
Proof. intros f H msg F. apply sha1_spec; [exact F|]. exact (H msg F). Qed.

Lemma encoding_bytes : forall a bs, ed_encoding a bs -> bytes bs.
Proof.
  intros a bs (_ & _ & H). apply big_endian_from in H. destruct H as (_ & H). apply Forall_rev in H. rewrite rev_involutive in H. exact H.
Qed.

Lemma reading_bytes : forall a bs, ed_reading a bs -> bytes bs.
Proof.
  intros a bs (_ & _ & y & sign & H & _). apply big_endian_from in H. destruct H as (_ & H). apply Forall_rev in H. rewrite rev_involutive in H. exact H.
Qed.

Lemma ed_valid_same : forall f g public msg sig, (forall m, bytes m -> f m = g m) -> bytes msg ->
  ed_valid f public msg sig -> ed_valid g public msg sig.
Proof.
  intros f g public msg sig Same F (hr & low & rr & a & b & s & k & x & y & H1 & H2 & H3 & H4 & H5 & H6 & H7 & H8 & H9).
  exists hr, low, rr, a, b, s, k, x, y. repeat (split; [assumption|]). split; [|exact H9].
  rewrite <- Same; [exact H8|]. apply Forall_app. split; [exact (encoding_bytes _ _ H2)|]. apply Forall_app. split; [exact (reading_bytes _ _ H3)|exact F].
Qed.

Lemma confirms_same : forall f g least a digest sig kt data, (forall m, bytes m -> f m = g m) -> bytes digest ->
  key_confirms f least a digest sig kt data -> key_confirms g least a digest sig kt data.
Proof.
  intros f g least a digest sig kt data Same F [n e bits data' D A B L V|public data' D V].
  - econstructor; eassumption.
  - econstructor; [exact D|]. exact (ed_valid_same f g _ _ _ Same F V).
Qed.

(** ** Signatures of Ed25519 *)

Lemma expanded_same : forall f g key s prefix, (forall m, bytes m -> f m = g m) -> bytes key ->
  ed_expanded f key s prefix -> ed_expanded g key s prefix.
Proof. intros f g key s prefix Same F (low & h & A & B). exists low, h. rewrite <- Same by exact F. split; assumption. Qed.

Lemma public_same : forall f g key public, (forall m, bytes m -> f m = g m) -> bytes key ->
  ed_public_key f key public -> ed_public_key g key public.
Proof.
  intros f g key public Same F (s & prefix & b & a & A & B). exists s, prefix, b, a. split; [|exact B]. exact (expanded_same f g _ _ _ Same F A).
Qed.

Lemma signature_same : forall f g key msg sig, (forall m, bytes m -> f m = g m) -> (forall m, bytes m -> bytes (f m)) -> bytes key -> bytes msg ->
  ed_signature f key msg sig -> ed_signature g key msg sig.
Proof.
  intros f g key msg sig Same Typed Fk Fm (s & prefix & public & r & hr & rr & k & low & A1 & A2 & A3 & A4 & A5 & A6 & A7 & A8 & A9).
  assert (bytes prefix) as Fp.
  { destruct A1 as (l & h & A1 & _). pose proof (Typed _ Fk) as X. rewrite A1 in X. apply Forall_app in X. exact (proj2 X). }
  assert (bytes public) as Fu. { destruct A2 as (? & ? & ? & ? & _ & _ & _ & X). exact (encoding_bytes _ _ X). }
  exists s, prefix, public, r, hr, rr, k, low. split; [exact (expanded_same f g _ _ _ Same Fk A1)|]. split; [exact (public_same f g _ _ Same Fk A2)|].
  split. { rewrite <- Same; [exact A3|]. apply Forall_app. auto. }
  split; [exact A4|]. split; [exact A5|]. split; [|auto].
  rewrite <- Same; [exact A6|]. apply Forall_app. split; [exact (encoding_bytes _ _ A5)|]. apply Forall_app. auto.
Qed.

Section Same.
Variables sha sha' : HashAlg -> list byte -> list byte.
Variables f f' : list byte -> list byte.
Hypothesis same : forall a m, bytes m -> sha a m = sha' a m.
Hypothesis same_f : forall m, bytes m -> f m = f' m.
Hypothesis typed : forall a m, bytes m -> bytes (sha a m).
Variable E : Env.
Variable canonical : CanonAlg -> list byte -> list byte.
Hypothesis canonical_bytes : forall alg body, bytes body -> bytes (canonical alg body).

Lemma valid_same : forall zone config now headers body name value sig k, header_fields headers -> field_name name -> bytes body ->
  valid_signature sha f E canonical zone config now headers body name value sig k ->
  valid_signature sha' f' E canonical zone config now headers body name value sig k.
Proof.
  intros zone config now headers body name value sig k H N B
    (s & tags & r & rtags & data & rest & A1 & A2 & A3 & A4 & A5 & A6 & A7 & A8 & A9 & A10 & A11 & A12 & A13 & A14 & (covered & B1 & B2 & B3) & A15).
  pose proof (signed_data_bytes _ _ _ _ _ _ H N A1 A13) as Fd.
  exists s, tags, r, rtags, data, rest. repeat (split; [assumption|]). split; [|split; [|exact A15]].
  - rewrite <- same by exact Fd. exact (confirms_same f f' _ _ _ _ _ _ same_f (typed _ _ Fd) A14).
  - exists covered. split; [exact B1|]. split; [|exact B3]. rewrite <- same; [exact B2|].
    pose proof (canonical_bytes (c_body (s_canonicalization sig)) _ B) as F. rewrite B1 in F. apply Forall_app in F. exact (proj1 F).
Qed.
End Same.

Section Any.
Variable sha : HashAlg -> list byte -> list byte.
Variable f : list byte -> list byte.
Hypothesis H256 : computes sha256_digest (sha Sha256).
Hypothesis H1 : computes sha1_digest (sha Sha1).
Hypothesis H512 : computes sha512_digest f.

Lemma sha_same : forall a m, bytes m -> sha a m = hash_fn real_crypto a m.
Proof. intros [|] m F; [exact (computes_sha256 _ H256 m F)|exact (computes_sha1 _ H1 m F)]. Qed.

Lemma sha_typed : forall a m, bytes m -> bytes (sha a m).
Proof. intros [|] m F; [apply H256|apply H1]; exact F. Qed.

Lemma any_valid : forall E canonical zone config now headers body name value sig k,
  (forall alg body, bytes body -> bytes (canonical alg body)) -> header_fields headers -> field_name name -> bytes body ->
  (valid_signature sha f E canonical zone config now headers body name value sig k
   <-> valid_signature (hash_fn real_crypto) sha512 E canonical zone config now headers body name value sig k).
Proof.
  intros E canonical zone config now headers body name value sig k Cb H N B. split.
  - apply valid_same; try assumption; [exact sha_same|exact (computes_sha512 f H512)|exact sha_typed].
  - apply valid_same; try assumption; [|intros m F; symmetry; exact (computes_sha512 f H512 m F)|intros a m F; rewrite <- sha_same by exact F; apply sha_typed; exact F].
    intros a m F. symmetry. apply sha_same. exact F.
Qed.

Lemma signature_fields_in : forall headers j i h, In (i, h) (signature_fields j headers) -> In h headers.
Proof.
  induction headers as [|g headers IH]; intros j i h I; [destruct I|]. cbn [signature_fields] in I. apply in_app_or in I.
  destruct I as [I|I]; [|right; exact (IH _ _ _ I)]. destruct (same_nameb _ _); [|destruct I]. destruct I as [I|[]]. injection I as _ <-. left. reflexivity.
Qed.

Lemma result_name : forall config headers rs i name value r, header_fields headers -> result_for config headers rs i name value r -> field_name name.
Proof.
  intros config headers rs i name value r H (k & I & _). apply nth_error_In in I. unfold examined in I.
  assert (In (i, (name, value)) (signature_fields 0 headers)) as J.
  { rewrite <- (firstn_skipn (cf_max_signatures config)). apply in_or_app. left. exact I. }
  apply signature_fields_in in J. unfold header_fields in H. rewrite Forall_forall in H. exact (proj1 (H _ J)).
Qed.

Theorem any_success : forall pre m idna w headers config chunks zone rs i name value r,
  let E := real_env pre m idna in
  world_ok w -> steady (w_resolver w) zone -> header_fields headers -> bytes (concat chunks) ->
  verify_message E w headers config chunks = Val (Some rs) -> result_for config headers rs i name value r ->
  let valid := valid_signature sha f E canonical_body zone config (w_clock w i) headers (concat chunks) name value in
  (vr_status r = Success <-> exists sig k, valid sig k)
  /\ (vr_status r = Success -> exists sig k, vr_signature r = Some sig /\ vr_key_record r = Some k /\ valid sig k)
  /\ (forall sig k, valid sig k -> vr_signature r = Some sig).
Proof.
  intros pre m idna w headers config chunks zone rs i name value r E W S H B V R valid.
  assert (forall sig k, valid sig k <-> valid_signature (hash_fn real_crypto) sha512 E canonical_body zone config (w_clock w i) headers (concat chunks) name value sig k) as Eq.
  { intros sig k. apply any_valid; [exact canonical_body_bytes|exact H|exact (result_name _ _ _ _ _ _ _ H R)|exact B]. }
  destruct (real_success _ _ _ _ _ _ _ _ _ _ _ _ _ W S H V R) as (X & Y & Z). split; [|split].
  - etransitivity; [exact X|]. split; intros (sig & k & A); exists sig, k; apply Eq; exact A.
  - intros Su. destruct (Y Su) as (sig & k & ? & ? & A). exists sig, k. split; [assumption|]. split; [assumption|]. apply Eq. exact A.
  - intros sig k A. apply (Z sig k), Eq, A.
Qed.

Theorem any_success_rfc : forall pre m idna w headers config chunks zone rs i name value r,
  let E := real_env pre m idna in
  world_ok w -> steady (w_resolver w) zone -> header_fields headers -> bytes (concat chunks) ->
  verify_message E w headers config chunks = Val (Some rs) -> result_for config headers rs i name value r ->
  let valid := valid_signature sha f E rfc_body zone config (w_clock w i) headers (concat chunks) name value in
  (forall sig, vr_signature r = Some sig -> regular_body (c_body (s_canonicalization sig)) (concat chunks)) ->
  (vr_status r = Success <-> exists sig k, valid sig k)
  /\ (vr_status r = Success -> exists sig k, vr_signature r = Some sig /\ vr_key_record r = Some k /\ valid sig k).
Proof.
  intros pre m idna w headers config chunks zone rs i name value r E W S H B V R valid Reg.
  assert (forall sig k, valid sig k <-> valid_signature (hash_fn real_crypto) sha512 E rfc_body zone config (w_clock w i) headers (concat chunks) name value sig k) as Eq.
  { intros sig k. apply any_valid; [exact rfc_body_bytes|exact H|exact (result_name _ _ _ _ _ _ _ H R)|exact B]. }
  destruct (real_success_rfc _ _ _ _ _ _ _ _ _ _ _ _ _ W S H V R Reg) as (X & Y). split.
  - etransitivity; [exact X|]. split; intros (sig & k & A); exists sig, k; apply Eq; exact A.
  - intros Su. destruct (Y Su) as (sig & k & ? & ? & A). exists sig, k. split; [assumption|]. split; [assumption|]. apply Eq. exact A.
Qed.
Theorem any_signature : forall key msg sig, bytes key -> bytes msg ->
  (ed_sign real_crypto key msg = sig <-> ed_signature f key msg sig).
Proof.
  intros key msg sig Fk Fm. assert (forall m, bytes m -> sha512 m = f m) as Sym. { intros m F. symmetry. exact (computes_sha512 f H512 m F). }
  split.
  - intros <-. apply (signature_same sha512 f); [exact Sym| |exact Fk|exact Fm|apply signature_spec; reflexivity]. intros m F. rewrite Sym by exact F. apply H512. exact F.
  - intros H. symmetry. apply signature_spec. apply (signature_same f sha512); [exact (computes_sha512 f H512)| |exact Fk|exact Fm|exact H]. intros m F. apply H512. exact F.
Qed.
End Any.
