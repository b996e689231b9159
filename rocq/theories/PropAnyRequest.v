(** Property C98: signing with any requests, and verifying what was signed, when nothing is
    assumed of cryptography. *)

From Coq Require Import String List NArith Permutation.
From Verif Require Import Base Utf8 Canon BodyHash Header TagList Domain Signature KeyRecord Crypto Base64 Format Sign Verify
  SpecText SpecCanon SpecHash SpecHeader SpecTag SpecDomain SpecSig SpecRecord SpecFormat SpecSign SpecOutput SpecVerify SpecEnd SpecDkim SpecCause SpecRsa SpecEd SpecReal SpecUnique
  SpecReceived SpecAnyRequest
  Concrete SignProofs RsaProofs EdEndProofs HeaderProofs HeaderCanonProofs VerifyProofs VerifyFacts WidthProofs EndProofs ConcreteProofs RealProofs ReceivedAny AnyRequest Lib
  Sample SampleRsa SampleEd PropDomain PropSign PropOutput PropVerify PropEnd PropRsa PropPrograms PropReal PropEd PropInterop UniqueSample PropReceived PropReceivedAny.
Import ListNotations.
Open Scope N_scope.

(** Either signing is refused, for the first reason there is, or each request gives a
    signature, unless there is a reason why it cannot. *)
Theorem C98_signing : forall pre m idna order headers rs chunks clock,
  let E := real_env pre m idna in
  Forall (request_typed E) rs -> Forall (fun r => proper_key (r_signing_key E r)) rs -> header_fields headers -> (forall l, Permutation (order l) l) ->
  exists e, first_of (signing_checks E headers rs) e /\
  match e with
  | Some e => sign_message E order headers rs chunks clock = Val (Err e)
  | None => exists results,
      sign_message E order headers rs chunks clock = Val (Ok results) /\ length results = length rs
      /\ forall j r res, nth_error rs j = Some r -> nth_error results j = Some res ->
           exists e, first_of (signing_troubles E (r_signing_key E r) r (concat chunks)) e
             /\ match e with
                | Some e => res = Err e
                | None => exists o, res = Ok o /\ signed_output E headers chunks clock j r o
                end
  end.
Proof. exact signing_any. Qed.
Print Assumptions C98_signing.

(** A signature made with a RSA key, and then placed on the message among other fields. *)
Theorem C98_rsa : forall pre m idna w config headers above below chunks chunks' clock j r o zone k n e d known,
  let E := real_env pre m idna in
  idna_ok idna -> readable_output E headers chunks clock j r o ->
  let headers' := (above ++ signature_field o :: below) ++ headers in
  not_oversigned (s_signed_headers (so_signature o)) headers (above ++ signature_field o :: below) ->
  r_signing_key E r = SkRsa (C := real_crypto) (mkRsaSecret (mkRsaKey n e) d known) ->
  rsa_pair n e d -> rsa_accepted n e -> large_enough pre config n -> published E zone r (rsa_record n e) ->
  header_fields headers' -> world_ok w -> steady (w_resolver w) zone -> concat chunks' = concat chunks ->
  nth_error (examined config headers') k = Some (length above, signature_field o) ->
  exists rs res sig err, verify_message E w headers' config chunks' = Val (Some rs) /\ nth_error rs k = Some res
    /\ vr_index res = length above /\ vr_signature res = Some sig /\ written_signature idna (r_format E r) (so_signature o) sig
    /\ first_of (unchanged_checks E headers' config (w_clock w (length above)) sig (concat chunks)) err /\ vr_status res = status_of err.
Proof.
  intros pre m idna w config headers above below chunks chunks' clock j r o zone k n e d known E Io RO headers' OV Hk P Acc L Pub Hf Wo S B Ex.
  pose proof (output_type pre m idna _ _ _ _ _ _ RO) as Kt. fold E in Kt. rewrite Hk in Kt.
  exact (placed E w config headers above below chunks chunks' clock j r o zone k Io real_nonempty RO OV
    (rsa_any_published pre m idna r config zone n e d known P Acc L Hk Kt Pub) Hf Wo S B Ex).
Qed.
Print Assumptions C98_rsa.

(** With an Ed25519 key. *)
Theorem C98_ed25519 : forall pre m idna w config headers above below chunks chunks' clock j r o zone k key public,
  let E := real_env pre m idna in
  idna_ok idna -> readable_output E headers chunks clock j r o ->
  let headers' := (above ++ signature_field o :: below) ++ headers in
  not_oversigned (s_signed_headers (so_signature o)) headers (above ++ signature_field o :: below) ->
  r_signing_key E r = SkEd25519 (C := real_crypto) key ->
  ed_public_key sha512 key public -> published E zone r (ed_record public) ->
  header_fields headers' -> world_ok w -> steady (w_resolver w) zone -> concat chunks' = concat chunks ->
  nth_error (examined config headers') k = Some (length above, signature_field o) ->
  exists rs res sig err, verify_message E w headers' config chunks' = Val (Some rs) /\ nth_error rs k = Some res
    /\ vr_index res = length above /\ vr_signature res = Some sig /\ written_signature idna (r_format E r) (so_signature o) sig
    /\ first_of (unchanged_checks E headers' config (w_clock w (length above)) sig (concat chunks)) err /\ vr_status res = status_of err.
Proof.
  intros pre m idna w config headers above below chunks chunks' clock j r o zone k key public E Io RO headers' OV Hk P Pub Hf Wo S B Ex.
  pose proof (output_type pre m idna _ _ _ _ _ _ RO) as Kt. fold E in Kt. rewrite Hk in Kt.
  exact (placed E w config headers above below chunks chunks' clock j r o zone k Io real_nonempty RO OV
    (ed_any_published pre m idna r config zone key public P Hk Kt Pub) Hf Wo S B Ex).
Qed.
Print Assumptions C98_ed25519.

(** ** Examples *)

Definition exactly (n : N) (alg : SigningAlg) (sk : SigningKey real_crypto) : SignRequest rsa_env :=
  mkRequest rsa_env sk alg (mkCanon Simple Relaxed) (lit "Example.com") (Manual [lit "From"; lit "subject"; lit "Subject"])
    None (ExactLen n) (lit "a-very.long-selector.name") TsNone None false [] default_format.

Lemma exactly_typed : forall n alg sk, request_typed rsa_env (exactly n alg sk).
Proof. intros n alg sk. exact (limited_typed alg sk). Qed.

Lemma exactly_fine : forall n alg sk, match sk, alg with SkRsa _, (RsaSha256 | RsaSha1) | SkEd25519 _, Ed25519Sha256 => True | _, _ => False end ->
  n < 2 ^ 64 -> first_of (request_checks rsa_env (exactly n alg sk)) None.
Proof.
  intros n alg sk M L. apply first_of_none_iff. unfold request_checks.
  cbn [exactly r_signing_key r_algorithm r_header_selection r_identity r_valid_duration r_ext_tags r_format r_body_length].
  repeat constructor; cbn [fst]; try (intros (x & X & _); discriminate X); try discriminate.
  - destruct sk, alg; tauto.
  - intros (names & X & Y). injection X as <-. apply (Y (lit "From")); [left; reflexivity|reflexivity].
  - intros (names & x & X & Hn & Y). injection X as <-. destruct Hn as [<-|[<-|[<-|[]]]]; vm_compute in Y; intuition discriminate.
  - intros X. apply X. split; [constructor|]. intros x v [].
  - intros X. apply X. vm_compute. reflexivity.
  - intros X. apply X. split; [|discriminate]. cbn. constructor; [auto|constructor].
  - intros (x & X & Y). injection X as <-. cbn [env_usize_max rsa_env real_env] in Y. lia.
Qed.

(** Three requests: one is fine; for one, the key is too small; for one, the body is too short. *)
Example C98_signing_example :
  let long := SkRsa (C := real_crypto) (mkRsaSecret (mkRsaKey short_n sample_e) short_d []) in
  let tiny := SkRsa (C := real_crypto) (mkRsaSecret (mkRsaKey 6 5) 5 []) in
  let ed := SkEd25519 (C := real_crypto) ed_sample_key in
  exists o, sign_message rsa_env (@rev _) sample_headers [limited RsaSha256 long; exactly 2 RsaSha1 tiny; exactly 1000 Ed25519Sha256 ed] output_chunks short_clock
    = Val (Ok [Ok o; Err SigningFailure; Err InsufficientContent]).
Proof.
  intros long tiny ed.
  assert (forall l : list BodyHasherKey, Permutation (rev l) l) as O by (intros l; symmetry; apply Permutation_rev).
  destruct (C98_signing false (2^64 - 1) ascii_idna (@rev _) sample_headers [limited RsaSha256 long; exactly 2 RsaSha1 tiny; exactly 1000 Ed25519Sha256 ed] output_chunks short_clock) as (x & F & X).
  - constructor; [apply limited_typed|]. constructor; [apply exactly_typed|]. constructor; [apply exactly_typed|]. constructor.
  - constructor; [exact short_pair|]. constructor; [|constructor; [exact I|constructor]].
    exists [2; 3]. split; [reflexivity|]. split; [repeat constructor; cbn; intuition discriminate|]. split; [discriminate|].
    constructor; [|constructor; [|constructor]].
    + split; [split; [reflexivity|]|exists 24; reflexivity]. intros x Hx. apply N.divide_pos_le in Hx as Le; [|lia].
      assert (x = 0 \/ x = 1 \/ x = 2) as [->|[->| ->]] by lia; auto. destruct Hx as (z & Z). rewrite N.mul_0_r in Z. discriminate Z.
    + split; [split; [reflexivity|]|exists 12; reflexivity]. intros x Hx. apply N.divide_pos_le in Hx as Le; [|lia].
      assert (x = 0 \/ x = 1 \/ x = 2 \/ x = 3) as [->|[->|[->| ->]]] by lia; auto; destruct Hx as (z & Z); [rewrite N.mul_0_r in Z; discriminate Z|lia].
  - exact sample_header_fields.
  - exact O.
  - assert (x = None) as ->.
    { eapply first_of_det; [exact F|]. apply checks_none.
      split; [exists (lit "From", lit " me@example.com"); split; [right; left; reflexivity|reflexivity]|]. split; [cbn; lia|].
      constructor; [apply limited_fine; exact I|]. constructor; [apply exactly_fine; [exact I|reflexivity]|]. constructor; [apply exactly_fine; [exact I|reflexivity]|constructor]. }
    destruct X as (results & Sg & Len & R). destruct results as [|r0 [|r1 [|r2 [|]]]]; try discriminate Len.
    destruct (R 0%nat _ _ eq_refl eq_refl) as (e0 & F0 & X0). destruct (R 1%nat _ _ eq_refl eq_refl) as (e1 & F1 & X1). destruct (R 2%nat _ _ eq_refl eq_refl) as (e2 & F2 & X2).
    assert (e0 = None) as ->.
    { eapply first_of_det; [exact F0|]. apply first_of_none_iff. constructor; [|constructor; [|constructor; [|constructor]]].
      - intros (n & N1 & N2). injection N1 as <-. vm_compute in N2. discriminate N2.
      - intros N2. vm_compute in N2. contradiction N2. reflexivity.
      - intros N2. vm_compute in N2. discriminate N2. }
    destruct X0 as (o & -> & _). exists o.
    assert (e1 = Some SigningFailure) as ->.
    { eapply first_of_det; [exact F1|]. apply first_of_cons_some. right. split; [|apply first_of_cons_some; right; split; [|apply first_of_cons_some; left; split; [|reflexivity]]].
      - intros (n & N1 & N2). injection N1 as <-. vm_compute in N2. discriminate N2.
      - intros N2. vm_compute in N2. contradiction N2. reflexivity.
      - vm_compute. reflexivity. }
    assert (e2 = Some InsufficientContent) as ->.
    { eapply first_of_det; [exact F2|]. apply first_of_cons_some. left. split; [|reflexivity]. exists 1000. split; [reflexivity|]. vm_compute. reflexivity. }
    subst r1 r2. exact Sg.
Qed.

Definition placed_on (o : SigningOutput) : list HeaderField := ([(lit "X-Trace", lit " 1")] ++ signature_field o :: [(lit "Received", lit " x")]) ++ sample_headers.

Definition verified_on_arrival (record : str) (o : SigningOutput) : Prop := forall forbid,
  exists res, verify_message rsa_env (sample_world 10 [record]) (placed_on o) (strict forbid) output_chunks = Val (Some [res])
    /\ vr_index res = 1%nat /\ vr_status res = (if forbid then Failure (Policy UnsignedContent) else Success).

Lemma placed_given : forall alg sk o, alg <> RsaSha1 -> signed_output rsa_env sample_headers output_chunks short_clock 0 (limited alg sk) o ->
  header_fields (placed_on o)
  /\ not_oversigned (s_signed_headers (so_signature o)) sample_headers ([(lit "X-Trace", lit " 1")] ++ signature_field o :: [(lit "Received", lit " x")])
  /\ forall forbid, examined (strict forbid) (placed_on o) = [(1%nat, signature_field o)].
Proof.
  intros alg sk o Na So.
  destruct (field_named rsa_env _ _ _ _ _ _ ascii_idna_ok (limited_readable alg sk o Na So)) as (Fn & Ff).
  destruct (request_parts _ _ _ _ _ _ _ So) as (hashed & names & Bd & Nm & Qn & _).
  assert (names = [lit "From"; lit "subject"; lit "Subject"]) as ->.
  { destruct Nm as [fs X|ns X]; [discriminate X|]. cbn [limited r_header_selection] in X. congruence. }
  split; [|split].
  - assert (header_fields [(lit "X-Trace", lit " 1"); (lit "Received", lit " x")]) as F by (apply fields_given; vm_compute; reflexivity).
    inversion F as [|? ? F1 F']. inversion F' as [|? ? F2 _]. inversion Ff as [|? ? F3 _].
    constructor; [exact F1|]. constructor; [exact F3|]. constructor; [exact F2|]. exact sample_header_fields.
  - intros n f Hn Hf Sn. exfalso. rewrite Qn in Hn. unfold same_name in *.
    destruct Hf as [<-|[<-|[<-|[]]]]; [|cbn [signature_field fst] in Sn; rewrite Fn in Sn|]; destruct Hn as [<-|[<-|[<-|[]]]]; vm_compute in Sn; discriminate Sn.
  - intros forbid. unfold examined. change (cf_max_signatures (strict forbid)) with 3%nat. unfold placed_on. cbn [app signature_fields signature_field fst].
    apply same_nameb_iff in Fn. rewrite Fn. reflexivity.
Qed.

Lemma placed_verified : forall record alg sk o, alg <> RsaSha1 -> signed_output rsa_env sample_headers output_chunks short_clock 0 (limited alg sk) o ->
  (forall forbid, exists rs res sig err, verify_message rsa_env (sample_world 10 [record]) (placed_on o) (strict forbid) output_chunks = Val (Some rs) /\ nth_error rs 0 = Some res
    /\ vr_index res = 1%nat /\ vr_signature res = Some sig /\ written_signature ascii_idna default_format (so_signature o) sig
    /\ first_of (unchanged_checks rsa_env (placed_on o) (strict forbid) 1003 sig (concat output_chunks)) err /\ vr_status res = status_of err) ->
  verified_on_arrival record o.
Proof.
  intros record alg sk o Na So Th forbid. destruct (placed_given alg sk o Na So) as (Hf & _ & Ex). specialize (Ex forbid).
  destruct (Th forbid) as (rs & res & sig & err & V & Kr & Ix & _ & W & F & St). clear Th.
  destruct (field_named rsa_env _ _ _ _ _ _ ascii_idna_ok (limited_readable alg sk o Na So)) as (Fn & _).
  destruct (request_parts _ _ _ _ _ _ _ So) as (hashed & names & Bd & Nm & Qn & Qa & _ & Qc & _ & _ & _ & Qt & Qx & _).
  assert (names = [lit "From"; lit "subject"; lit "Subject"]) as ->.
  { destruct Nm as [fs X|ns X]; [discriminate X|]. cbn [limited r_header_selection] in X. congruence. }
  assert (s_body_length (so_signature o) = Some 2) as Ql by (inversion Bd as [Z1|cb Z1|n a b Z1 Z2 Z3]; try discriminate Z1; injection Z1 as <-; reflexivity).
  assert (alg_hash alg = Sha256) as Ah by (destruct alg; try reflexivity; contradiction).
  destruct W as (W1 & _ & _ & W4 & _ & W6 & _ & W8 & _ & W10 & W11 & _).
  rewrite Qa in W1. rewrite Qc in W4. rewrite Qn in W6. rewrite Ql in W8. rewrite Qt in W10. rewrite Qx in W11.
  cbn [limited r_canonicalization r_algorithm] in W1, W4.
  assert (rs = [res]) as ->.
  { destruct (verify_message_cases rsa_env (sample_world 10 [record]) (placed_on o) (strict forbid) output_chunks (sample_world_ok _ _) Hf) as [[_ X]|(_ & rs' & V' & Ln)]; [congruence|].
    rewrite V in V'. injection V' as <-. rewrite Ex in Ln. destruct rs as [|r0 [|]]; try discriminate Ln. injection Kr as ->. reflexivity. }
  exists res. split; [exact V|]. split; [exact Ix|]. rewrite St.
  assert (err = if forbid then Some (Policy UnsignedContent) else None) as ->; [|destruct forbid; reflexivity].
  eapply first_of_det; [exact F|]. apply first_of_app.
  - apply signature_good_iff. unfold signature_good. rewrite W1, W6, W8, W10, W11. cbv zeta.
    change (cf_headers_required_in_signature (strict forbid)) with [lit "Subject"]. change (cf_headers_forbidden_to_be_unsigned (strict forbid)) with [lit "From"].
    split; [intros n [<-|[]]; exists (lit "Subject"); split; [right; right; left; reflexivity|reflexivity]|].
    split. { intros n [<-|[]]. unfold placed_on. cbn [app map fst signature_field]. unfold occurrences. cbn [filter].
      assert (same_nameb (so_header_name o) (lit "From") = false) as ->; [|vm_compute; repeat constructor].
      unfold same_nameb. unfold same_name in Fn. rewrite Fn. reflexivity. }
    split; [intros l X; injection X as <-; vm_compute; discriminate|]. split; [discriminate|]. split; [discriminate|]. intros _. exact Ah.
  - rewrite W4, W8. cbn [c_body]. destruct forbid.
    + apply first_of_cons_some. left. split; [|reflexivity]. split; [reflexivity|]. exists 2. split; [reflexivity|]. vm_compute. reflexivity.
    + apply first_none; [|constructor]. intros (X & _). discriminate X.
Qed.

Example C98_example : let sk := SkRsa (C := real_crypto) (mkRsaSecret (mkRsaKey short_n sample_e) short_d []) in
  exists o, sign_message rsa_env (@rev _) sample_headers [limited RsaSha256 sk] output_chunks short_clock = Val (Ok [Ok o])
  /\ verified_on_arrival short_key_record o.
Proof.
  intros sk. destruct (limited_signing RsaSha256 sk I) as (o & Sg & So).
  { exact (pair_signs short_n sample_e short_d short_pair (proj1 short_bits)). }
  exists o. split; [exact Sg|]. assert (RsaSha256 <> RsaSha1) as Na by discriminate.
  destruct (placed_given RsaSha256 sk o Na So) as (Hf & OV & Ex).
  apply (placed_verified short_key_record RsaSha256 sk o Na So). intros forbid.
  assert (published rsa_env (sample_zone [short_key_record]) (limited RsaSha256 sk) (rsa_record short_n sample_e)) as Pub.
  { destruct short_published as (dn & sn & txts & txt & k & H1 & H2 & H3 & H4 & H5 & H6 & H7 & H8).
    exists dn, sn, txts, txt, k. split; [exact H1|]. split; [exact H2|]. split; [exact H3|]. split; [exact H4|]. split; [exact H5|]. split; [split; [exact H6|exact H8]|]. split; [exact H7|].
    intros _ i X. discriminate X. }
  assert (large_enough false (strict forbid) short_n) as L.
  { exists 128. split; [vm_compute; discriminate|vm_compute; discriminate]. }
  apply (C98_rsa false (2^64 - 1) ascii_idna (sample_world 10 [short_key_record]) (strict forbid) sample_headers [(lit "X-Trace", lit " 1")] [(lit "Received", lit " x")]
    output_chunks output_chunks short_clock 0%nat (limited RsaSha256 sk) o (sample_zone [short_key_record]) 0%nat short_n sample_e short_d []
    ascii_idna_ok (limited_readable _ _ _ Na So) OV eq_refl short_pair short_accepted L Pub Hf (sample_world_ok _ _) (sample_steady _ _) eq_refl).
  pose proof (Ex forbid) as E1. unfold placed_on in E1. rewrite E1. reflexivity.
Qed.

Example C98_ed_example : let sk := SkEd25519 (C := real_crypto) ed_sample_key in
  exists o, sign_message rsa_env (@rev _) sample_headers [limited Ed25519Sha256 sk] output_chunks short_clock = Val (Ok [Ok o])
  /\ verified_on_arrival ed_sample_record o.
Proof.
  intros sk. destruct (limited_signing Ed25519Sha256 sk I) as (o & Sg & So).
  { intros data. discriminate. }
  exists o. split; [exact Sg|]. assert (Ed25519Sha256 <> RsaSha1) as Na by discriminate.
  destruct (placed_given Ed25519Sha256 sk o Na So) as (Hf & OV & Ex).
  apply (placed_verified ed_sample_record Ed25519Sha256 sk o Na So). intros forbid.
  assert (published rsa_env (sample_zone [ed_sample_record]) (limited Ed25519Sha256 sk) (ed_record ed_sample_public)) as Pub.
  { assert (ed_published rsa_env (sample_zone [ed_sample_record]) (lit "Example.com") (lit "a-very.long-selector.name") ed_sample_public) as
      (dn & sn & txts & txt & k & H1 & H2 & H3 & H4 & H5 & H6 & H7 & H8).
    { destruct ed_sample_read as (k & K & K1 & K2 & K3). apply (ed_record_published _ k); [apply sample_scalar|exact K|exact K1|exact K2|left; exact K3]. }
    exists dn, sn, txts, txt, k. split; [exact H1|]. split; [exact H2|]. split; [exact H3|]. split; [exact H4|]. split; [exact H5|]. split; [split; [exact H6|exact H8]|]. split; [exact H7|].
    intros _ i X. discriminate X. }
  apply (C98_ed25519 false (2^64 - 1) ascii_idna (sample_world 10 [ed_sample_record]) (strict forbid) sample_headers [(lit "X-Trace", lit " 1")] [(lit "Received", lit " x")]
    output_chunks output_chunks short_clock 0%nat (limited Ed25519Sha256 sk) o (sample_zone [ed_sample_record]) 0%nat ed_sample_key ed_sample_public
    ascii_idna_ok (limited_readable _ _ _ Na So) OV eq_refl ed_sample_public_key Pub Hf (sample_world_ok _ _) (sample_steady _ _) eq_refl).
  pose proof (Ex forbid) as E1. unfold placed_on in E1. rewrite E1. reflexivity.
Qed.
