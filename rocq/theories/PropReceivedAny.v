(** Property C96: what becomes of a message signed with any request, in whatever form and
    at whatever time it is received, with any configuration. *)

From Coq Require Import String List NArith Permutation.
From Verif Require Import Base Utf8 Canon BodyHash Header TagList Domain Signature KeyRecord Crypto Base64 Format Sign Verify
  SpecText SpecCanon SpecHash SpecHeader SpecTag SpecDomain SpecSig SpecRecord SpecFormat SpecSign SpecOutput SpecVerify SpecEnd SpecDkim SpecCause SpecRsa SpecEd SpecReal SpecUnique
  SpecTransit SpecAuthor SpecChange SpecReceived SpecReceivedAny
  Concrete SignProofs RsaProofs EdEndProofs HeaderProofs HeaderCanonProofs VerifyProofs VerifyFacts WidthProofs EndProofs ConcreteProofs RealProofs TransitProofs UniqueProofs ChangeProofs ReceivedProofs ReceivedAny Lib
  Sample SampleRsa SampleEd PropDomain PropSign PropOutput PropVerify PropEnd PropRsa PropPrograms PropReal PropEd PropInterop UniqueSample PropReceived.
Import ListNotations.
Open Scope N_scope.

(** With a RSA key, and one key record in DNS.  The result is the first of [all_checks] that
    fails, or success. *)
Theorem C96_rsa : forall pre m idna config r headers chunks clock j o zone,
  let E := real_env pre m idna in
  idna_ok idna -> readable_output E headers chunks clock j r o -> not_oversigned (s_signed_headers (so_signature o)) headers [signature_field o] ->
  key_published E r config (fun p => zone (key_name p)) -> sole_record E zone (r_domain E r) (r_selector E r) ->
  key_type_for (r_algorithm E r) = Rsa ->
  let value := as_bytes (so_header_value o) in
  exists sig, signature_read E value (so_header_value o) (Ok sig) /\ written_signature idna (r_format E r) (so_signature o) sig
    /\ forall now headers' body' name' r', result_of E config zone now headers' body' name' value r' ->
       exists data data' err,
         signed_text E (signature_field o :: headers) (so_header_name o) value sig data /\ signed_text E headers' name' value sig data'
         /\ first_of (all_checks E config now sig headers'
              (fields_kept sig (so_header_name o) name' (signature_field o :: headers) headers' \/ collision E (alg_hash (s_algorithm sig)) data data')
              (concat chunks) body') err
         /\ vr_status r' = status_of err /\ vr_signature r' = Some sig.
Proof. exact rsa_any. Qed.
Print Assumptions C96_rsa.

(** With an Ed25519 key. *)
Theorem C96_ed25519 : forall pre m idna config r headers chunks clock j o zone key public,
  let E := real_env pre m idna in
  idna_ok idna -> readable_output E headers chunks clock j r o -> not_oversigned (s_signed_headers (so_signature o)) headers [signature_field o] ->
  key_published E r config (fun p => zone (key_name p)) -> sole_record E zone (r_domain E r) (r_selector E r) ->
  ed_public_key sha512 key public -> ed_published E zone (r_domain E r) (r_selector E r) public ->
  let value := as_bytes (so_header_value o) in
  exists sig, signature_read E value (so_header_value o) (Ok sig) /\ written_signature idna (r_format E r) (so_signature o) sig
    /\ forall now headers' body' name' r', result_of E config zone now headers' body' name' value r' ->
       exists data data' err,
         signed_text E (signature_field o :: headers) (so_header_name o) value sig data /\ signed_text E headers' name' value sig data'
         /\ first_of (all_checks E config now sig headers'
              (fields_kept sig (so_header_name o) name' (signature_field o :: headers) headers'
               \/ ed_clash sha512 (hash_fn real_crypto (alg_hash (s_algorithm sig))) public (s_signature_data sig) data data')
              (concat chunks) body') err
         /\ vr_status r' = status_of err /\ vr_signature r' = Some sig.
Proof. exact ed_any. Qed.
Print Assumptions C96_ed25519.

(** ** Example *)

(** a request with other canonicalizations, a choice of header fields, and a limit on the body *)
Definition limited (alg : SigningAlg) (sk : SigningKey real_crypto) : SignRequest rsa_env :=
  mkRequest rsa_env sk alg (mkCanon Simple Relaxed) (lit "Example.com") (Manual [lit "From"; lit "subject"; lit "Subject"])
    None (ExactLen 2) (lit "a-very.long-selector.name") TsNone None false [] default_format.

Definition strict (forbid : bool) : Config := mkConfig 10 3 [lit "Subject"] [lit "From"] 1024 false forbid false false 0 None.

Definition reordered : list HeaderField := [(lit "Subject", lit " =|;"); (lit "X", lit " 1"); (lit "From", lit " me@example.com")].

Definition received_any (record : str) (o : SigningOutput) (now : N) (forbid : bool) (headers' : list HeaderField) (body' : list byte) (status : VerificationStatus) : Prop :=
  let value := as_bytes (so_header_value o) in
  exists r, result_of rsa_env (strict forbid) (sample_zone [record]) now (signature_field o :: headers') body' (so_header_name o) value r
    /\ vr_status r = status.

Definition all_received_any (record : str) (o : SigningOutput) : Prop :=
  forall now,
  received_any record o now false reordered (lit "Hi, there") Success
  /\ received_any record o now true reordered (lit "Hi, there") (Failure (Policy UnsignedContent))
  /\ received_any record o now true reordered [] (Failure VInsufficientContent)
  /\ received_any record o now false reordered (lit "Ho") (Failure BodyHashMismatch)
  /\ received_any record o now false ((lit "From", lit " you") :: reordered) (lit "Hi") (Failure (Policy UnsignedHeaderOccurrence)).

Lemma limited_typed : forall alg sk, request_typed rsa_env (limited alg sk).
Proof.
  intros alg sk. destruct sample_names as (Dd & Ds). split; [exact Dd|]. split; [exact Ds|]. split; [discriminate|]. split; [|exact I].
  intros names X. injection X as <-. apply Forall_forall. intros n [<-|[<-|[<-|[]]]]; eapply (proj1 (field_name_new_spec _ _)); vm_compute; reflexivity.
Qed.

Lemma limited_fine : forall alg sk, match sk, alg with SkRsa _, (RsaSha256 | RsaSha1) | SkEd25519 _, Ed25519Sha256 => True | _, _ => False end ->
  first_of (request_checks rsa_env (limited alg sk)) None.
Proof.
  intros alg sk M. apply first_of_none_iff. unfold request_checks.
  cbn [limited r_signing_key r_algorithm r_header_selection r_identity r_valid_duration r_ext_tags r_format r_body_length].
  repeat constructor; cbn [fst]; try (intros (x & X & _); discriminate X); try discriminate.
  - destruct sk, alg; tauto.
  - intros (names & X & Y). injection X as <-. apply (Y (lit "From")); [left; reflexivity|reflexivity].
  - intros (names & n & X & Hn & Y). injection X as <-. destruct Hn as [<-|[<-|[<-|[]]]]; vm_compute in Y; intuition discriminate.
  - intros X. apply X. split; [constructor|]. intros n v [].
  - intros X. apply X. vm_compute. reflexivity.
  - intros X. apply X. split; [|discriminate]. cbn. constructor; [auto|constructor].
  - intros (n & X & Y). injection X as <-. vm_compute in Y. discriminate Y.
Qed.

Lemma limited_signing : forall alg sk, match sk, alg with SkRsa _, (RsaSha256 | RsaSha1) | SkEd25519 _, Ed25519Sha256 => True | _, _ => False end ->
  (forall data, primitive_sign rsa_env sk alg (hash_fn real_crypto (alg_hash alg) data) <> None) ->
  exists o, sign_message rsa_env (@rev _) sample_headers [limited alg sk] output_chunks short_clock = Val (Ok [Ok o])
    /\ signed_output rsa_env sample_headers output_chunks short_clock 0 (limited alg sk) o.
Proof.
  intros alg sk M Ps. pose proof (limited_typed alg sk) as T.
  assert (forall l : list BodyHasherKey, Permutation (rev l) l) as O by (intros l; symmetry; apply Permutation_rev).
  destruct (signing_spec rsa_env (@rev _) sample_headers [limited alg sk] output_chunks short_clock (real_typed false (2^64 - 1) ascii_idna) (Forall_cons _ T (Forall_nil _)) sample_header_fields O) as (x & X & Y).
  assert (x = None) as ->.
  { eapply first_of_det; [exact X|]. apply checks_none.
    split; [exists (lit "From", lit " me@example.com"); split; [right; left; reflexivity|reflexivity]|]. split; [cbn; lia|]. constructor; [apply limited_fine; exact M|constructor]. }
  destruct Y as (results & Y & Len & R). destruct results as [|res [|]]; try discriminate Len.
  specialize (R 0%nat (limited alg sk) res eq_refl eq_refl).
  assert (exists o, res = Ok o) as (o & ->).
  { inversion R as [n X1 X2|hashed l X1 X2|u pre post X1 X2 X3 X4|]; subst.
    - injection X1 as <-. vm_compute in X2. discriminate X2.
    - inversion X1 as [| |n a b Z1 Z2 Z3]; subst; [discriminate|]. injection Z1 as Z1. rewrite <- Z1 in X2. vm_compute in X2. contradiction X2. reflexivity.
    - destruct X1 as (? & ? & ? & ? & _ & _ & _ & ->). exfalso. unfold header_digest in X4. exact (Ps _ X4).
    - eauto. }
  exists o. split; [exact Y|]. split; [apply real_typed|]. split; [exact sample_header_fields|].
  exists (@rev _), [limited alg sk], [Ok o]. split; [constructor; [exact T|constructor]|]. auto.
Qed.

Lemma limited_readable : forall alg sk o, alg <> RsaSha1 -> signed_output rsa_env sample_headers output_chunks short_clock 0 (limited alg sk) o ->
  readable_output rsa_env sample_headers output_chunks short_clock 0 (limited alg sk) o.
Proof.
  intros alg sk o Ha H. split; [exact H|]. split; [|split; [reflexivity|split; [|constructor]]].
  - constructor; cbn [limited r_domain r_selector r_identity r_algorithm r_ext_tags].
    + split; [apply sample_scalar|]. split; [apply sample_scalar|]. discriminate.
    + discriminate.
    + intros X. contradiction.
    + intros [].
    + intros t X. discriminate X.
  - destruct (signed_output_of _ _ _ _ _ _ _ H) as (pre & post & n & b64 & O).
    destruct (OutputProofs.oo_u _ _ _ _ _ _ _ _ _ _ _ _ O) as (hashed & l & names & copied & _ & _ & Cp & X).
    unfold copied_headers in Cp. cbn [limited r_copy_headers] in Cp. subst copied.
    apply (f_equal u_copied_headers) in X. unfold unsigned_part in X. cbn in X. unfold copied_names_safe. rewrite X. constructor.
Qed.

Lemma other_first : forall body, body = lit "Ho" ->
  ~ (firstn 2 (canonical_body Relaxed (concat output_chunks)) = firstn 2 (canonical_body Relaxed body)
     \/ collision rsa_env Sha256 (firstn 2 (canonical_body Relaxed (concat output_chunks))) (firstn 2 (canonical_body Relaxed body))).
Proof.
  intros body -> [H|[_ H]].
  - vm_compute in H. discriminate H.
  - unfold rsa_env in H. rewrite !real_hash in H. vm_compute in H. discriminate H.
Qed.

Lemma arrivals_any : forall record alg sk o (clash : DkimSig -> list byte -> list byte -> Prop), let value := as_bytes (so_header_value o) in alg <> RsaSha1 ->
  signed_output rsa_env sample_headers output_chunks short_clock 0 (limited alg sk) o ->
  (forall forbid, exists sig, signature_read rsa_env value (so_header_value o) (Ok sig) /\ written_signature ascii_idna default_format (so_signature o) sig
   /\ forall now headers' body' name' r', result_of rsa_env (strict forbid) (sample_zone [record]) now headers' body' name' value r' ->
     exists data data' err, first_of (all_checks rsa_env (strict forbid) now sig headers'
          (fields_kept sig (so_header_name o) name' (signature_field o :: sample_headers) headers' \/ clash sig data data') (concat output_chunks) body') err
        /\ vr_status r' = status_of err) ->
  all_received_any record o.
Proof.
  intros record alg sk o clash value Na So Th now.
  destruct (field_named rsa_env _ _ _ _ _ _ ascii_idna_ok (limited_readable alg sk o Na So)) as (Fn & Ff).
  destruct (request_parts _ _ _ _ _ _ _ So) as (hashed & names & Bd & Nm & Qn & Qa & _ & Qc & _ & _ & _ & Qt & Qx & _).
  assert (forall ns, signed_names rsa_env (limited alg sk) sample_headers ns -> ns = [lit "From"; lit "subject"; lit "Subject"]) as Ns.
  { intros ns H. destruct H as [fs X|ns X]; [discriminate X|]. cbn [limited r_header_selection] in X. congruence. }
  apply Ns in Nm. subst names.
  assert (s_body_length (so_signature o) = Some 2) as Ql by (inversion Bd as [Z1|cb Z1|n a b Z1 Z2 Z3]; try discriminate Z1; injection Z1 as <-; reflexivity).
  assert (alg_hash alg = Sha256) as Ah by (destruct alg; try reflexivity; contradiction).
  assert (forall forbid headers' body' err, header_fields headers' ->
    (forall sig (text : Prop), s_algorithm sig = alg -> s_canonicalization sig = mkCanon Simple Relaxed -> s_signed_headers sig = [lit "From"; lit "subject"; lit "Subject"] ->
       s_body_length sig = Some 2 -> s_timestamp sig = None -> s_expiration sig = None ->
       (fields_kept sig (so_header_name o) (so_header_name o) (signature_field o :: sample_headers) (signature_field o :: headers') -> text) ->
       first_of (all_checks rsa_env (strict forbid) now sig (signature_field o :: headers') text (concat output_chunks) body') err) ->
    received_any record o now forbid headers' body' (status_of err)) as Go.
  { intros forbid headers' body' err F Fo. destruct (Th forbid) as (sig & SR & W & T).
    destruct W as (W1 & _ & _ & W4 & _ & W6 & _ & W8 & _ & W10 & W11 & _).
    assert (header_fields (signature_field o :: headers')) as F2 by (inversion Ff; constructor; assumption).
    set (w := mkWorld (mkResolver (fun _ => sample_zone [record]) (fun _ _ => 0)) (fun _ => now) (fun l => l) (fun l => l)).
    assert (nth_error (examined (strict forbid) (signature_field o :: headers')) 0 = Some (0%nat, (so_header_name o, value))) as Ex.
    { unfold examined. change (cf_max_signatures (strict forbid)) with 3%nat. cbn [signature_fields signature_field fst]. apply same_nameb_iff in Fn. rewrite Fn. reflexivity. }
    destruct (result_given rsa_env (strict forbid) (sample_zone [record]) w _ [body'] 0%nat 0%nat (so_header_name o) value
      ltac:(split; intros l; apply Permutation_refl) ltac:(intros ? ?; reflexivity) F2 Ex) as (r & R).
    cbn [concat] in R. rewrite app_nil_r in R. exists r. split; [exact R|].
    destruct (T _ _ _ _ _ R) as (data & data' & err' & Fo' & S). rewrite S. f_equal. apply (first_of_det _ _ _ _ Fo').
    apply Fo; [rewrite W1; exact Qa|rewrite W4; exact Qc|rewrite W6; exact Qn|rewrite W8; exact Ql|rewrite W10; exact Qt|rewrite W11; exact Qx|tauto]. }
  assert (header_fields reordered) as Fr by (apply fields_given; vm_compute; reflexivity).
  assert (forall forbid body' err, (forall sig, s_algorithm sig = alg -> s_canonicalization sig = mkCanon Simple Relaxed -> s_body_length sig = Some 2 ->
       first_of (body_checks rsa_env (strict forbid) sig (concat output_chunks) body') err) ->
    received_any record o now forbid reordered body' (status_of err)) as Body.
  { intros forbid body' err Fo. apply Go; [exact Fr|]. intros sig text S1 S2 S3 S4 S5 S6 Ht. apply first_of_app.
    - apply signature_good_iff. unfold signature_good. rewrite S3, S4, S5, S6, S1. cbv zeta.
      change (cf_headers_required_in_signature (strict forbid)) with [lit "Subject"]. change (cf_headers_forbidden_to_be_unsigned (strict forbid)) with [lit "From"].
      split; [intros n [<-|[]]; exists (lit "Subject"); split; [right; right; left; reflexivity|reflexivity]|].
      split. { intros n [<-|[]]. cbn [map fst signature_field reordered]. unfold occurrences. cbn [filter].
        assert (same_nameb (so_header_name o) (lit "From") = false) as ->; [|vm_compute; repeat constructor].
        unfold same_nameb. unfold same_name in Fn. rewrite Fn. reflexivity. }
      split; [intros l X; injection X as <-; vm_compute; discriminate|]. split; [discriminate|]. split; [discriminate|]. intros _. exact Ah.
    - assert text as Tv.
      { apply Ht. split; [rewrite S2; reflexivity|]. cbv zeta. rewrite S2, S3. cbn [c_header]. intros n. unfold lowest, named.
        assert (forall x y : str, leqb x y = true <-> x = y) as Leq by apply leqb_eq.
        assert (lower n <> lower (so_header_name o) -> True) as _ by auto.
        destruct (leqb (lower n) (lit "from")) eqn:N1; [|destruct (leqb (lower n) (lit "subject")) eqn:N2].
        - apply Leq in N1. unfold occurrences, same_nameb. rewrite N1. cbn [signature_field]. unfold same_name in Fn. cbn [rev sample_headers reordered app].
          cbn [filter fst signature_field]. rewrite Fn. vm_compute. repeat constructor.
        - apply Leq in N2. unfold occurrences, same_nameb. rewrite N2. cbn [signature_field]. unfold same_name in Fn. cbn [rev sample_headers reordered app].
          cbn [filter fst signature_field]. rewrite Fn. vm_compute. repeat constructor.
        - assert (occurrences n [lit "From"; lit "subject"; lit "Subject"] = 0%nat) as ->; [|cbn [firstn]; constructor].
          unfold occurrences, same_nameb. cbn [filter].
          assert (forall x, leqb (lower n) x = false -> leqb x (lower n) = false) as Sy.
          { intros x X. destruct (leqb x (lower n)) eqn:Y; [|reflexivity]. apply Leq in Y. subst x. assert (leqb (lower n) (lower n) = true) as Z by (apply Leq; reflexivity). congruence. }
          apply Sy in N1, N2. change (lower (lit "From")) with (lit "from"). change (lower (lit "subject")) with (lit "subject"). change (lower (lit "Subject")) with (lit "subject").
          rewrite N1, N2. reflexivity. }
      specialize (Fo sig S1 S2 S4). destruct err as [e|]; [apply first_of_cons_some; right; split; [tauto|exact Fo]|apply first_none; [tauto|exact Fo]]. }
  split.
  { apply (Body false _ None). intros sig S1 S2 S4. unfold body_checks. rewrite S4, S2. cbn [c_body]. change (N.to_nat 2) with 2%nat.
    apply first_none; [vm_compute; discriminate|]. apply first_none; [intros (X & _); discriminate X|]. apply first_none; [|constructor]. intros N. apply N. left. vm_compute. reflexivity. }
  split.
  { apply (Body true _ (Some _)). intros sig S1 S2 S4. unfold body_checks. rewrite S4, S2. cbn [c_body]. change (N.to_nat 2) with 2%nat.
    apply first_of_cons_some. right. split; [vm_compute; discriminate|]. apply first_of_cons_some. left. split; [|reflexivity]. split; [reflexivity|vm_compute; reflexivity]. }
  split.
  { apply (Body true _ (Some _)). intros sig S1 S2 S4. unfold body_checks. rewrite S4, S2. cbn [c_body]. change (N.to_nat 2) with 2%nat.
    apply first_of_cons_some. left. split; [vm_compute; reflexivity|reflexivity]. }
  split.
  { apply (Body false _ (Some _)). intros sig S1 S2 S4. unfold body_checks. rewrite S4, S2, S1, Ah. cbn [c_body]. change (N.to_nat 2) with 2%nat.
    apply first_of_cons_some. right. split; [vm_compute; discriminate|]. apply first_of_cons_some. right. split; [intros (X & _); discriminate X|].
    apply first_of_cons_some. left. split; [apply other_first; reflexivity|reflexivity]. }
  apply (Go false _ _ (Some _)); [apply fields_given; vm_compute; reflexivity|]. intros sig text S1 S2 S3 S4 S5 S6 Ht. unfold all_checks, signature_checks. cbn [app].
  apply first_of_cons_some. right. split.
  { intros (n & [<-|[]] & X). apply (X (lit "Subject")); [rewrite S3; right; right; left; reflexivity|reflexivity]. }
  apply first_of_cons_some. left. split; [|reflexivity]. exists (lit "From"). split; [left; reflexivity|]. rewrite S3. cbn [map fst signature_field reordered]. unfold occurrences. cbn [filter].
  assert (same_nameb (so_header_name o) (lit "From") = false) as ->; [|vm_compute; repeat constructor].
  unfold same_nameb. unfold same_name in Fn. rewrite Fn. reflexivity.
Qed.

Lemma limited_not_oversigned : forall alg sk o, alg <> RsaSha1 -> signed_output rsa_env sample_headers output_chunks short_clock 0 (limited alg sk) o ->
  not_oversigned (s_signed_headers (so_signature o)) sample_headers [signature_field o].
Proof.
  intros alg sk o Na So n f Hn [<-|[]] Sn. exfalso.
  destruct (field_named rsa_env _ _ _ _ _ _ ascii_idna_ok (limited_readable alg sk o Na So)) as (Fn & _).
  destruct (request_parts _ _ _ _ _ _ _ So) as (hashed & names & _ & Nm & Qn & _). rewrite Qn in Hn. clear Qn.
  destruct Nm as [fs X|ns X]; [discriminate X|]. cbn [limited r_header_selection] in X. injection X as <-.
  unfold same_name in *. cbn [signature_field fst] in Sn. rewrite Fn in Sn. destruct Hn as [<-|[<-|[<-|[]]]]; vm_compute in Sn; discriminate Sn.
Qed.

Lemma pair_signs : forall n e d, rsa_pair n e d -> 2 ^ 1016 <= n -> forall data,
  primitive_sign rsa_env (SkRsa (C := real_crypto) (mkRsaSecret (mkRsaKey n e) d [])) RsaSha256 (hash_fn real_crypto (alg_hash RsaSha256) data) <> None.
Proof.
  intros n e d P L data. destruct (rsa_signs false (2^64 - 1) ascii_idna (mkRsaSecret (mkRsaKey n e) d []) Sha256 data) as (sig & S).
  - destruct P as (ps & _ & _ & Pos & _). exact Pos.
  - pose proof (long_bytes n e L). cbn [rs_public]. lia.
  - intros X. cbn [primitive_sign env_crypto rsa_env real_env real_crypto rsa_sign hash_fn alg_hash] in X, S. rewrite S in X. discriminate X.
Qed.

Example C96_example : let sk := SkRsa (C := real_crypto) (mkRsaSecret (mkRsaKey short_n sample_e) short_d []) in
  exists o, sign_message rsa_env (@rev _) sample_headers [limited RsaSha256 sk] output_chunks short_clock = Val (Ok [Ok o])
  /\ all_received_any short_key_record o.
Proof.
  intros sk. destruct (limited_signing RsaSha256 sk I) as (o & Sg & So).
  { exact (pair_signs short_n sample_e short_d short_pair (proj1 short_bits)). }
  exists o. split; [exact Sg|]. assert (RsaSha256 <> RsaSha1) as Na by discriminate.
  apply (arrivals_any short_key_record RsaSha256 sk o (fun sig => collision rsa_env (alg_hash (s_algorithm sig))) Na So). intros forbid.
  assert (key_published rsa_env (limited RsaSha256 sk) (strict forbid) (fun p => sample_zone [short_key_record] (key_name p))) as K.
  { apply (rsa_key_published false (2^64 - 1) ascii_idna (limited RsaSha256 sk) (strict forbid) (sample_zone [short_key_record]) short_n sample_e short_d []
      short_pair short_accepted); [apply short_bits|vm_compute; discriminate|reflexivity|reflexivity|reflexivity|exact short_published]. }
  assert (sole_record rsa_env (sample_zone [short_key_record]) (lit "Example.com") (lit "a-very.long-selector.name")) as One.
  { intros dn sn D S. vm_compute in D, S. injection D as <-. injection S as <-. eexists. reflexivity. }
  destruct (C96_rsa false (2^64 - 1) ascii_idna (strict forbid) (limited RsaSha256 sk) sample_headers output_chunks short_clock 0%nat o (sample_zone [short_key_record])
    ascii_idna_ok (limited_readable _ _ _ Na So) (limited_not_oversigned _ _ _ Na So) K One eq_refl) as (sig & SR & W & Th).
  exists sig. split; [exact SR|]. split; [exact W|]. intros now headers' body' name' r' R'.
  destruct (Th now headers' body' name' r' R') as (data & data' & err & _ & _ & F & S & _). exists data, data', err. split; [exact F|exact S].
Qed.

Example C96_ed_example : let sk := SkEd25519 (C := real_crypto) ed_sample_key in
  exists o, sign_message rsa_env (@rev _) sample_headers [limited Ed25519Sha256 sk] output_chunks short_clock = Val (Ok [Ok o])
  /\ all_received_any ed_sample_record o.
Proof.
  intros sk. destruct (limited_signing Ed25519Sha256 sk I) as (o & Sg & So).
  { intros data. discriminate. }
  exists o. split; [exact Sg|]. assert (Ed25519Sha256 <> RsaSha1) as Na by discriminate.
  apply (arrivals_any ed_sample_record Ed25519Sha256 sk o (fun sig => ed_clash sha512 (hash_fn real_crypto (alg_hash (s_algorithm sig))) ed_sample_public (s_signature_data sig)) Na So). intros forbid.
  assert (ed_published rsa_env (sample_zone [ed_sample_record]) (lit "Example.com") (lit "a-very.long-selector.name") ed_sample_public) as Pub.
  { destruct ed_sample_read as (k & K & K1 & K2 & K3). apply (ed_record_published _ k); [apply sample_scalar|exact K|exact K1|exact K2|left; exact K3]. }
  assert (key_published rsa_env (limited Ed25519Sha256 sk) (strict forbid) (fun p => sample_zone [ed_sample_record] (key_name p))) as K.
  { eapply (ed_key_published false (2^64 - 1) ascii_idna (limited Ed25519Sha256 sk) (strict forbid) (sample_zone [ed_sample_record]));
      try exact ed_sample_public_key; try exact Pub; reflexivity. }
  assert (sole_record rsa_env (sample_zone [ed_sample_record]) (lit "Example.com") (lit "a-very.long-selector.name")) as One.
  { intros dn sn D S. vm_compute in D, S. injection D as <-. injection S as <-. eexists. reflexivity. }
  destruct (C96_ed25519 false (2^64 - 1) ascii_idna (strict forbid) (limited Ed25519Sha256 sk) sample_headers output_chunks short_clock 0%nat o (sample_zone [ed_sample_record])
    ed_sample_key ed_sample_public ascii_idna_ok (limited_readable _ _ _ Na So) (limited_not_oversigned _ _ _ Na So) K One ed_sample_public_key Pub) as (sig & SR & W & Th).
  exists sig. split; [exact SR|]. split; [exact W|]. intros now headers' body' name' r' R'.
  destruct (Th now headers' body' name' r' R') as (data & data' & err & _ & _ & F & S & _). exists data, data', err. split; [exact F|exact S].
Qed.
