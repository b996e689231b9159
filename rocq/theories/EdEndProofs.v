(** Proofs: with the concrete cryptography of Concrete.v, Ed25519 signatures verify. *)

From Coq Require Import String List Permutation Lia ZArith NArith.
From Verif Require Import Base Utf8 Base64 Canon BodyHash Header Domain Signature KeyRecord Crypto Format Sign Verify Pem Programs
  SpecText SpecCanon SpecHash SpecHeader SpecTag SpecDomain SpecSig SpecRecord SpecFormat SpecSign SpecOutput SpecVerify SpecEnd SpecDkim SpecCause
  SpecPrograms SpecRsa SpecEd Concrete Lib Base64Proofs SignProofs EndProofs CauseProofs ProgramsProofs NumberProofs ConcreteProofs RsaProofs EdSignProofs EdSpecProofs.
Import ListNotations.
Open Scope N_scope.

(** ** Encodings *)

Lemma ed_info_read : forall public bs, ed_info_der public bs -> spki [6; 3; 43; 101; 112] bs = Some public.
Proof.
  intros public bs (a & b & A & B & D). unfold spki. rewrite (der_read_all _ _ _ D), (der_read _ _ _ _ A). rewrite leqb_refl.
  rewrite (der_read_all _ _ _ B). reflexivity.
Qed.

Lemma element_longer : forall tag c bs, der_element tag c bs -> (length c < length bs)%nat.
Proof. intros tag c bs H. inversion H; subst; cbn [length]; rewrite ?app_length; lia. Qed.

Lemma ed_info_longer : forall public bs, ed_info_der public bs -> (length public < length bs)%nat.
Proof.
  intros public bs (a & b & A & B & D). apply element_longer in B, D. cbn [length] in B. rewrite app_length in D. lia.
Qed.

Lemma ed_private_read : forall key bs, ed_private_info_der key bs -> length key = 32%nat ->
  exists i, private_key_info bs = Some i /\ rsa_secret i = None /\ ed_secret i = Some key.
Proof.
  intros key bs (v & a & inner & o & V & A & K & O & D) L. unfold private_key_info. rewrite (der_read_all _ _ _ D). cbn [obind fst].
  rewrite (integer_read _ _ (a ++ o) V). cbn [obind snd]. rewrite (der_read _ _ _ _ A). cbn [obind fst snd].
  rewrite (der_read_all _ _ _ O). cbn [option_map fst obind]. eexists. split; [reflexivity|]. split; [reflexivity|].
  unfold ed_secret. cbn [fst snd]. rewrite leqb_refl, (der_read_all _ _ _ K), L. reflexivity.
Qed.

Lemma ed_private_bytes : forall key bs, ed_private_info_der key bs -> Forall is_byte key -> Forall is_byte bs.
Proof.
  intros key bs (v & a & inner & o & V & A & K & O & D) B.
  apply (der_bytes _ _ _ D); [unfold is_byte; lia|]. apply Forall_app. split; [eapply integer_bytes; eassumption|]. apply Forall_app. split.
  - apply (der_bytes _ _ _ A); [unfold is_byte; lia|]. repeat constructor; unfold is_byte; lia.
  - apply (der_bytes _ _ _ O); [unfold is_byte; lia|]. apply (der_bytes _ _ _ K); [unfold is_byte; lia|exact B].
Qed.

Lemma ed_pem_key : forall key bs t, ed_private_info_der key bs -> length key = 32%nat -> Forall is_byte key -> pem_text (lit "PRIVATE KEY") bs t ->
  from_pkcs8_pem real_pem t = Ok (SkEd25519 (C := real_crypto) key).
Proof.
  intros key bs t Inf L B Pem. pose proof (ed_private_bytes _ _ Inf B) as Bs.
  unfold from_pkcs8_pem. cbn [pk_document real_pem pk_label_ok pk_read_info pk_rsa pk_ed25519].
  rewrite (pem_read _ _ _ Pem Bs) by (intros X; vm_compute in X; intuition discriminate). rewrite leqb_refl. cbn [negb].
  destruct (ed_private_read _ _ Inf L) as (i & -> & -> & ->). reflexivity.
Qed.

(** ** Signing and verifying *)

Section Real.
Variables (pre : bool) (m : N) (idna : Idna).
Notation E := (real_env pre m idna).

Lemma ed_in_record : forall kt public data q, kt = Ed25519 -> ed_key public = Some q -> length public = 32%nat ->
  data = public \/ ed_info_der public data -> key_in E kt data (VkEd25519 (C := real_crypto) q).
Proof.
  intros kt public data q -> K L [->|H].
  - apply ki_raw. exact K.
  - apply ki_ed_spki.
    + cbn [ed_from_raw env_crypto real_env real_crypto]. unfold ed_key, read_point. apply ed_info_longer in H.
      destruct (Nat.eqb_spec (length data) 32) as [X|_]; [lia|reflexivity].
    + cbn [ed_from_spki env_crypto real_env real_crypto]. rewrite (ed_info_read _ _ H). exact K.
Qed.

Lemma ed_key_published : forall (r : SignRequest E) config zone key public,
  ed_public_key sha512 key public ->
  r_signing_key E r = SkEd25519 (C := real_crypto) key -> r_algorithm E r = Ed25519Sha256 -> r_identity E r = None ->
  ed_published E zone (r_domain E r) (r_selector E r) public ->
  key_published E r config (fun p => zone (key_name p)).
Proof.
  intros r config zone key public P Hk Ha Hi (dn & sn & txts & txt & k & H1 & H2 & H3 & H4 & H5 & H6 & H7 & H8).
  apply public_spec in P. destruct (public_readable key) as (q & K & _). rewrite <- P in K.
  assert (length public = 32%nat) as L by (rewrite P; apply encode_length).
  exists dn, sn, txts, txt. split; [exact H1|]. split; [exact H2|]. split; [exact H3|]. split; [exact H4|].
  apply record_reads_iff in H5 as (s & A & B). exists s, k, (VkEd25519 (C := real_crypto) (public, q)).
  split; [exact A|]. split; [exact B|]. rewrite Ha. split; [exact H6|]. split.
  { intros X. rewrite X in H8. destruct H8 as [H8|H8]; [rewrite <- H8 in L; discriminate L|]. apply ed_info_longer in H8. cbn in H8. lia. }
  split; [exact H7|]. split; [intros _ i X; rewrite Hi in X; discriminate X|]. split; [eapply ed_in_record; eassumption|].
  split.
  - intros pk X. discriminate X.
  - rewrite Hk. intros a digest sig X. cbn [verifies ed_verify env_crypto real_env real_crypto].
    cbn [primitive_sign ed_sign env_crypto real_env real_crypto] in X. injection X as <-.
    apply ed25519_confirms. rewrite <- P. exact K.
Qed.

Lemma ed_signing : forall order headers (r : SignRequest E) chunks clock key,
  r_signing_key E r = SkEd25519 (C := real_crypto) key -> r_body_length E r = NoLimit ->
  request_typed E r -> first_of (request_checks E r) None -> (forall l, Permutation (order l) l) ->
  header_fields headers -> (exists f, In f headers /\ same_name (fst f) (lit "From")) ->
  exists o, sign_message E order headers [r] chunks clock = Val (Ok [Ok o]) /\ signed_output E headers chunks clock 0 r o.
Proof.
  intros order headers r chunks clock key Hk Hb T F O H From.
  destruct (signing_spec E order headers [r] chunks clock (real_typed pre m idna) (Forall_cons _ T (Forall_nil _)) H O) as (x & X & Y).
  assert (x = None) as ->.
  { eapply first_of_det; [exact X|]. apply checks_none. split; [exact From|]. split; [cbn; lia|]. constructor; [exact F|constructor]. }
  destruct Y as (results & Y & Len & R). destruct results as [|res [|]]; try discriminate Len.
  specialize (R 0%nat r res eq_refl eq_refl).
  assert (exists o, res = Ok o) as (o & ->).
  { inversion R; subst; [congruence|match goal with H : signed_body _ _ _ _ _ |- _ => inversion H; congruence end| |eauto].
    match goal with H : primitive_sign _ _ _ _ = None |- _ => rename H into PS end. rewrite Hk in PS. cbn [primitive_sign] in PS. discriminate PS. }
  exists o. split; [exact Y|]. split; [apply real_typed|]. split; [exact H|].
  exists order, [r], [Ok o]. split; [constructor; [exact T|constructor]|]. auto.
Qed.

Lemma ed_request_fine : forall d s k, first_of (request_checks E (request_new E d s Ed25519Sha256 (SkEd25519 (C := real_crypto) k))) None.
Proof.
  intros d s k. apply first_of_none_iff. unfold request_checks.
  cbn [request_new r_signing_key r_algorithm r_header_selection r_identity r_valid_duration r_ext_tags r_format r_body_length].
  repeat constructor; cbn [fst]; try (intros (x & X); discriminate X); try (intros (x & y & X & _); discriminate X); try (intros (x & X & _); discriminate X); try discriminate.
  - cbn; tauto.
  - intros X. apply X. split; [constructor|]. intros n v [].
  - intros X. apply X. vm_compute. reflexivity.
  - intros X. apply X. split; [|discriminate]. cbn. constructor; [auto|constructor].
Qed.

Theorem ed_end_to_end : forall order w key public dom sel headers chunks chunks' clock zone,
  idna_ok idna -> ed_public_key sha512 key public ->
  domain_text idna dom true -> domain_text idna sel false -> Forall is_scalar dom -> Forall is_scalar sel ->
  (forall l, Permutation (order l) l) -> header_fields headers -> (exists f, In f headers /\ same_name (fst f) (lit "From")) ->
  world_ok w -> steady (w_resolver w) zone -> ed_published E zone dom sel public ->
  concat chunks' = concat chunks ->
  let signed := clock 0%nat in let now := w_clock w 0 in
  signed < 2^64 - 1 -> signed <= now + 300 -> now < signed + 432000 + 300 -> now < 2^64 - 1 ->
  let sk := SkEd25519 (C := real_crypto) key in
  exists o, sign_message E order headers [request_new E dom sel Ed25519Sha256 sk] chunks clock = Val (Ok [Ok o])
    /\ exists res rest, verify_message E w (signature_field o :: headers) default_config chunks' = Val (Some (res :: rest))
         /\ vr_index res = 0%nat /\ vr_status res = Success.
Proof.
  intros order w key public dom sel headers chunks chunks' clock zone Io P Hd Hs Sd Ss O H From W S Pub B signed now T1 T2 T3 T4 sk.
  destruct (ed_signing order headers (request_new E dom sel Ed25519Sha256 sk) chunks clock key) as (o & Sg & So); try reflexivity; try assumption.
  - apply request_new_typed; assumption.
  - apply ed_request_fine.
  - exists o. split; [exact Sg|]. apply (fresh_end_to_end E w dom sel Ed25519Sha256 sk headers chunks chunks' clock 0 o zone Io real_nonempty Sd Ss ltac:(discriminate) So W S); try assumption.
    eapply (ed_key_published (request_new E dom sel Ed25519Sha256 sk)); try eassumption; try reflexivity.
Qed.

Theorem ed_programs : forall order clock files w zone show program program' key_file dom sel stdin headers body pem bs key public,
  idna_ok idna -> length key = 32%nat -> Forall is_byte key -> ed_public_key sha512 key public ->
  ed_private_info_der key bs -> pem_text (lit "PRIVATE KEY") bs pem -> files key_file = Some (as_bytes pem) ->
  domain_text idna dom true -> domain_text idna sel false -> Forall is_scalar dom -> Forall is_scalar sel ->
  message_input stdin headers body -> (exists f, In f headers /\ same_name (fst f) (lit "From")) ->
  (forall l, Permutation (order l) l) -> clock 0%nat < 2^64 ->
  world_ok w -> steady (w_resolver w) zone -> ed_published E zone dom sel public ->
  exists out, dkimsign E real_pem files order clock [program; key_file; dom; sel] stdin = Val (mkExit 0 out [])
    /\ exists r rest t, dkimverify E show w [program'] (as_bytes out ++ stdin) = Val (mkExit 0 t [])
         /\ listing show 1 (r :: rest) t /\ vr_status r = Success.
Proof.
  intros order clock files w zone show program program' key_file dom sel stdin headers body pem bs key public Io L B P Inf Pem Fl Hd Hs Sd Ss M From O Ck W S Pub.
  set (sk := SkEd25519 (C := real_crypto) key).
  pose proof (ed_private_bytes _ _ Inf B) as Bs.
  assert (can_sign E real_pem files key_file dom sel stdin sk headers body) as Can.
  { split; [|auto]. exists pem. split; [exact Fl|]. split; [eapply pem_scalar; eassumption|].
    eapply ed_pem_key; eassumption. }
  destruct (dkimsign_spec E real_pem files order clock program key_file dom sel stdin (real_typed pre m idna) Io O Sd Ss) as (D & _).
  destruct (D sk headers body Can) as [(o & out & Run & So & Pr)|(_ & Bad)].
  - exists out. split; [exact Run|].
    assert (signed_times E zone stdin 1 (as_bytes out ++ stdin)) as St.
    { eapply (st_more E zone stdin 0 stdin real_pem files order clock program key_file dom sel out [] sk headers body); [apply st_none|assumption..| | |exact Can|]; [exact Run| |].
      - destruct Pr as (v & _ & ->). destruct (so_header_name o); discriminate.
      - eapply (ed_key_published (request_for E dom sel sk)); try eassumption; try reflexivity. }
    destruct (programs_together E (real_typed pre m idna) Io zone show w program' stdin 1 _ real_nonempty W S St) as (rs & rest & t & V & Li & Len & Su); [lia|].
    destruct rs as [|r [|]]; try discriminate Len. exists r, rest, t. inversion Su; subst. auto.
  - exfalso. inversion Bad; subst. match goal with H : primitive_sign _ _ _ _ = None |- _ => rename H into PS end.
    unfold sk in PS. cbn [request_for r_signing_key primitive_sign] in PS. discriminate PS.
Qed.

End Real.
