(** Property C95: what becomes of a message signed in the default way, in whatever form and
    at whatever time it is received. *)

From Coq Require Import String List NArith Permutation.
From Verif Require Import Base Utf8 Canon BodyHash Header TagList Domain Signature KeyRecord Crypto Base64 Format Sign Verify
  SpecText SpecCanon SpecHash SpecHeader SpecTag SpecDomain SpecSig SpecRecord SpecFormat SpecSign SpecOutput SpecVerify SpecEnd SpecDkim SpecCause SpecRsa SpecEd SpecReal SpecUnique
  SpecTransit SpecAuthor SpecChange SpecReceived
  Concrete SignProofs RsaProofs HeaderProofs HeaderCanonProofs VerifyProofs VerifyFacts EndProofs ConcreteProofs RealProofs TransitProofs UniqueProofs ChangeProofs ReceivedProofs Lib
  Sample SampleRsa SampleEd PropDomain PropSign PropOutput PropVerify PropEnd PropRsa PropPrograms PropReal PropEd PropInterop UniqueSample.
Import ListNotations.
Open Scope N_scope.

(** With a RSA key, and one key record in DNS.  The result is determined by the checks of
    [receipt_checks]: it is the first that fails, or success. *)
Theorem C95_rsa : forall pre m idna order n e d known dom sel headers chunks clock zone,
  let E := real_env pre m idna in
  idna_ok idna -> rsa_pair n e d -> rsa_accepted n e -> 2 ^ 1016 <= n ->
  domain_text idna dom true -> domain_text idna sel false -> Forall is_scalar dom -> Forall is_scalar sel ->
  (forall l, Permutation (order l) l) -> header_fields headers -> (exists f, In f headers /\ same_name (fst f) (lit "From")) ->
  rsa_published E zone dom sel n e -> sole_record E zone dom sel -> clock 0%nat < 2^64 - 1 ->
  let key := SkRsa (C := real_crypto) (mkRsaSecret (mkRsaKey n e) d known) in
  exists o, sign_message E order headers [request_new E dom sel RsaSha256 key] chunks clock = Val (Ok [Ok o])
    /\ let value := as_bytes (so_header_value o) in
       forall now headers' body' name' r', result_of E default_config zone now headers' body' name' value r' ->
       exists sig data data' err,
         signed_text E (signature_field o :: headers) (so_header_name o) value sig data /\ signed_text E headers' name' value sig data'
         /\ first_of (receipt_checks (clock 0%nat) now headers headers' (default_intact headers headers' \/ collision E Sha256 data data')
                        (body_same E (concat chunks) body')) err
         /\ vr_status r' = status_of err /\ vr_signature r' = Some sig.
Proof. exact rsa_received. Qed.
Print Assumptions C95_rsa.

(** With an Ed25519 key. *)
Theorem C95_ed25519 : forall pre m idna order key public dom sel headers chunks clock zone,
  let E := real_env pre m idna in
  idna_ok idna -> ed_public_key sha512 key public ->
  domain_text idna dom true -> domain_text idna sel false -> Forall is_scalar dom -> Forall is_scalar sel ->
  (forall l, Permutation (order l) l) -> header_fields headers -> (exists f, In f headers /\ same_name (fst f) (lit "From")) ->
  ed_published E zone dom sel public -> sole_record E zone dom sel -> clock 0%nat < 2^64 - 1 ->
  let sk := SkEd25519 (C := real_crypto) key in
  exists o, sign_message E order headers [request_new E dom sel Ed25519Sha256 sk] chunks clock = Val (Ok [Ok o])
    /\ let value := as_bytes (so_header_value o) in
       forall now headers' body' name' r', result_of E default_config zone now headers' body' name' value r' ->
       exists sig data data' err,
         signed_text E (signature_field o :: headers) (so_header_name o) value sig data /\ signed_text E headers' name' value sig data'
         /\ first_of (receipt_checks (clock 0%nat) now headers headers'
                        (default_intact headers headers' \/ ed_clash sha512 (hash_fn real_crypto Sha256) public (s_signature_data sig) data data')
                        (body_same E (concat chunks) body')) err
         /\ vr_status r' = status_of err /\ vr_signature r' = Some sig.
Proof. exact ed_received. Qed.
Print Assumptions C95_ed25519.

(** ** Example *)

(** fields may be spelled and folded differently, moved, and added, unless they are From *)
Definition refolded : list HeaderField :=
  [(lit "X-Added", lit " 1"); (lit "SUBJECT", lit "   =|; "); (lit "from", [13; 10; 9] ++ lit "me@example.com"); (lit "To", lit " another");
   (lit "To", lit " a, b")].

Lemma refolded_intact : forall value, default_intact sample_headers ((lit "dkim-signature", value) :: refolded).
Proof.
  intros value n Hn. unfold lowest, named, same_nameb. revert Hn. generalize (lower n). intros ln Hn.
  assert (Forall (fun ln => Forall2 (same_field Relaxed) (filter (fun f => leqb (lower (fst f)) ln) (rev sample_headers))
    (firstn (length (filter (fun f => leqb (lower (fst f)) ln) sample_headers))
       (filter (fun f => leqb (lower (fst f)) ln) (rev ((lit "dkim-signature", value) :: refolded))))) signed_by_default) as F
    by (repeat constructor).
  rewrite Forall_forall in F. exact (F ln Hn).
Qed.

Lemma other_body : ~ body_same rsa_env (concat output_chunks) (lit "Ho").
Proof.
  intros [H|[_ H]].
  - apply same_body_canonical in H. vm_compute in H. discriminate H.
  - unfold rsa_env in H. rewrite !real_hash in H. vm_compute in H. discriminate H.
Qed.

Lemma fields_given : forall hs,
  forallb (fun f => (match field_name_new (fst f), field_body_new (snd f) with Some _, Some _ => true | _, _ => false end)
    && forallb (fun b => b <? 256) (snd f))%bool hs = true -> header_fields hs.
Proof.
  intros hs H. apply Forall_forall. intros f Hf. rewrite forallb_forall in H. specialize (H f Hf). apply andb_prop in H as (H & H3).
  destruct (field_name_new (fst f)) as [n|] eqn:X; [|discriminate H]. destruct (field_body_new (snd f)) as [v|] eqn:Y; [|discriminate H].
  apply field_name_new_spec in X. apply field_body_new_spec in Y. split; [tauto|]. split; [tauto|apply all_bytes; exact H3].
Qed.

Lemma sample_names : domain_text ascii_idna (lit "Example.com") true /\ domain_text ascii_idna (lit "a-very.long-selector.name") false.
Proof.
  destruct (DomainProofs.domain_new_spec ascii_idna (lit "Example.com")) as (rd & X & Y). vm_compute in X. injection X as <-.
  destruct (DomainProofs.selector_new_spec ascii_idna (lit "a-very.long-selector.name")) as (rs & X & Z). vm_compute in X. injection X as <-.
  split; [exact (proj2 (proj1 (Y _) eq_refl))|exact (proj2 (proj1 (Z _) eq_refl))].
Qed.

Definition received (record : str) (o : SigningOutput) (now : N) (headers' : list HeaderField) (body' : list byte) (status : VerificationStatus) : Prop :=
  let value := as_bytes (so_header_value o) in
  exists r, result_of rsa_env default_config (sample_zone [record]) now ((lit "dkim-signature", value) :: headers') body' (lit "dkim-signature") value r
    /\ vr_status r = status.

Definition all_received (record : str) (o : SigningOutput) : Prop :=
  received record o 1003 refolded (concat output_chunks ++ [13; 10]) Success
  /\ received record o 1003 ((lit "From", lit " you") :: refolded) (concat output_chunks) (Failure (Policy UnsignedHeaderOccurrence))
  /\ received record o 433299 refolded (concat output_chunks) Success
  /\ received record o 433300 refolded (concat output_chunks) (Failure (Policy SignatureExpired))
  /\ received record o 700 refolded (concat output_chunks) Success
  /\ received record o 699 refolded (concat output_chunks) (Failure (Policy TimestampInFuture))
  /\ received record o 1003 refolded (lit "Ho") (Failure BodyHashMismatch).

Lemma arrivals : forall record alg sk o (clash : DkimSig -> list byte -> list byte -> Prop), let value := as_bytes (so_header_value o) in alg <> RsaSha1 ->
  sign_message rsa_env (@rev _) sample_headers [request_new rsa_env (lit "Example.com") (lit "a-very.long-selector.name") alg sk] output_chunks short_clock = Val (Ok [Ok o]) ->
  (forall now headers' body' name' r', result_of rsa_env default_config (sample_zone [record]) now headers' body' name' value r' ->
     exists sig data data' err, first_of (receipt_checks 1000 now sample_headers headers' (default_intact sample_headers headers' \/ clash sig data data')
        (body_same rsa_env (concat output_chunks) body')) err /\ vr_status r' = status_of err) ->
  all_received record o.
Proof.
  intros record alg sk o clash value Na Sg Th.
  assert (Forall is_scalar (lit "Example.com") /\ Forall is_scalar (lit "a-very.long-selector.name")) as (Sd & Ss) by (split; apply sample_scalar).
  assert (domain_text ascii_idna (lit "Example.com") true /\ domain_text ascii_idna (lit "a-very.long-selector.name") false) as (Dd & Ds) by exact sample_names.
  assert (signed_output rsa_env sample_headers output_chunks short_clock 0 (request_new rsa_env (lit "Example.com") (lit "a-very.long-selector.name") alg sk) o) as So.
  { split; [apply real_typed|]. split; [exact sample_header_fields|].
    exists (@rev _), [request_new rsa_env (lit "Example.com") (lit "a-very.long-selector.name") alg sk], [Ok o].
    split; [constructor; [apply request_new_typed; assumption|constructor]|]. split; [intros l; symmetry; apply Permutation_rev|]. split; [exact Sg|split; reflexivity]. }
  assert (signed_before := eq_refl : (short_clock 0 <? 2 ^ 64 - 1) = true). apply N.ltb_lt in signed_before.
  destruct (field_named rsa_env _ _ _ _ _ _ ascii_idna_ok (fresh_readable rsa_env _ _ alg sk _ _ _ _ _ Sd Ss Na signed_before So)) as (_ & Ff).
  assert (forall now headers' body' err, header_fields headers' ->
    (forall sig data data', first_of (receipt_checks 1000 now sample_headers ((lit "dkim-signature", value) :: headers')
       (default_intact sample_headers ((lit "dkim-signature", value) :: headers') \/ clash sig data data')
       (body_same rsa_env (concat output_chunks) body')) err) -> received record o now headers' body' (status_of err)) as Go.
  { intros now headers' body' err F Fo.
    assert (header_fields ((lit "dkim-signature", value) :: headers')) as F2.
    { constructor; [|exact F]. split; [apply (proj1 (field_name_new_spec _ (lit "dkim-signature"))); vm_compute; reflexivity|]. inversion Ff as [|? ? Y]. apply Y. }
    set (w := mkWorld (mkResolver (fun _ => sample_zone [record]) (fun _ _ => 0)) (fun _ => now) (fun l => l) (fun l => l)).
    destruct (result_given rsa_env default_config (sample_zone [record]) w _ [body'] 0%nat 0%nat (lit "dkim-signature") value
      ltac:(split; intros l; apply Permutation_refl) ltac:(intros ? ?; reflexivity) F2 eq_refl) as (r & R).
    cbn [concat] in R. rewrite app_nil_r in R. exists r. split; [exact R|].
    destruct (Th _ _ _ _ _ R) as (sig & data & data' & err' & Fo' & S). rewrite S. f_equal. exact (first_of_det _ _ _ _ Fo' (Fo sig data data')). }
  assert (header_fields refolded) as Fr by (apply fields_given; vm_compute; reflexivity).
  assert (forall now, now + 300 <? 1000 = false -> 433300 <=? now = false ->
    ~ (1000 + 5 * 24 * 60 * 60 + 300 <= now \/ 2 ^ 64 - 1 <= now) /\ ~ now + 300 < 1000) as Ti.
  { intros now A B. change (5 * 24 * 60 * 60) with 432000. apply N.ltb_ge in A. apply N.leb_gt in B. lia. }
  assert (forall now body', ~ (1000 + 5 * 24 * 60 * 60 + 300 <= now \/ 2 ^ 64 - 1 <= now) /\ ~ now + 300 < 1000 -> body_same rsa_env (concat output_chunks) body' ->
    received record o now refolded body' Success) as Ok1.
  { intros now body' (A & B) Bs. apply (Go now refolded body' None Fr). intros sig data data'. apply first_of_none_iff.
    repeat constructor; cbn [fst]; try assumption; [vm_compute; lia| |tauto]. intros Nq. apply Nq. left. apply refolded_intact. }
  split; [apply Ok1; [apply Ti; reflexivity|left; apply sb_crlf; intros; [discriminate|discriminate]]|].
  split. { apply (Go _ _ _ (Some _)); [apply fields_given; vm_compute; reflexivity|]. intros sig data data'. apply first_of_cons_some. left. split; [vm_compute; lia|reflexivity]. }
  split; [apply Ok1; [apply Ti; reflexivity|left; apply sb_refl]|].
  split. { apply (Go _ _ _ (Some _) Fr). intros sig data data'. apply first_of_cons_some. right. split; [vm_compute; lia|]. apply first_of_cons_some. left. split; [left; vm_compute; discriminate|reflexivity]. }
  split; [apply Ok1; [apply Ti; reflexivity|left; apply sb_refl]|].
  split. { apply (Go _ _ _ (Some _) Fr). intros sig data data'. apply first_of_cons_some. right. split; [vm_compute; lia|]. apply first_of_cons_some. right.
    split; [intros [X|X]; vm_compute in X; apply X; reflexivity|]. apply first_of_cons_some. left. split; [reflexivity|reflexivity]. }
  apply (Go _ _ _ (Some _) Fr). intros sig data data'. destruct (Ti 1003 eq_refl eq_refl) as (A & B).
  apply first_of_cons_some. right. split; [vm_compute; lia|]. do 2 (apply first_of_cons_some; right; split; [assumption|]).
  apply first_of_cons_some. right. split; [intros Nq; apply Nq; left; apply refolded_intact|]. apply first_of_cons_some. left. split; [exact other_body|reflexivity].
Qed.

Example C95_example : exists o, let sk := SkRsa (C := real_crypto) (mkRsaSecret (mkRsaKey short_n sample_e) short_d []) in
  sign_message rsa_env (@rev _) sample_headers [request_new rsa_env (lit "Example.com") (lit "a-very.long-selector.name") RsaSha256 sk] output_chunks short_clock
    = Val (Ok [Ok o])
  /\ all_received short_key_record o.
Proof.
  destruct sample_names as (Dd & Ds).
  destruct (C95_rsa false (2^64 - 1) ascii_idna (@rev _) short_n sample_e short_d [] (lit "Example.com") (lit "a-very.long-selector.name")
    sample_headers output_chunks short_clock (sample_zone [short_key_record])) as (o & Sg & Th).
  - exact ascii_idna_ok.
  - exact short_pair.
  - exact short_accepted.
  - apply short_bits.
  - exact Dd.
  - exact Ds.
  - apply sample_scalar.
  - apply sample_scalar.
  - intros l. symmetry. apply Permutation_rev.
  - exact sample_header_fields.
  - exists (lit "From", lit " me@example.com"). split; [right; left; reflexivity|reflexivity].
  - exact short_published.
  - intros dn sn D S. vm_compute in D, S. injection D as <-. injection S as <-. eexists. reflexivity.
  - reflexivity.
  - exists o. intros sk. split; [exact Sg|].
    assert (RsaSha256 <> RsaSha1) as Na by discriminate. apply (arrivals short_key_record RsaSha256 sk o (fun _ => collision rsa_env Sha256) Na Sg). intros now headers' body' name' r' R.
    destruct (Th _ _ _ _ _ R) as (sig & data & data' & err & _ & _ & F & S & _). exists sig, data, data', err. split; [exact F|exact S].
Qed.

Example C95_ed_example : exists o, let sk := SkEd25519 (C := real_crypto) ed_sample_key in
  sign_message ed_env (@rev _) sample_headers [request_new ed_env (lit "Example.com") (lit "a-very.long-selector.name") Ed25519Sha256 sk] output_chunks short_clock
    = Val (Ok [Ok o])
  /\ all_received ed_sample_record o.
Proof.
  destruct sample_names as (Dd & Ds).
  destruct (C95_ed25519 false (2^64 - 1) ascii_idna (@rev _) ed_sample_key ed_sample_public (lit "Example.com") (lit "a-very.long-selector.name")
    sample_headers output_chunks short_clock (sample_zone [ed_sample_record])) as (o & Sg & Th).
  - exact ascii_idna_ok.
  - exact ed_sample_public_key.
  - exact Dd.
  - exact Ds.
  - apply sample_scalar.
  - apply sample_scalar.
  - intros l. symmetry. apply Permutation_rev.
  - exact sample_header_fields.
  - exists (lit "From", lit " me@example.com"). split; [right; left; reflexivity|reflexivity].
  - destruct ed_sample_read as (k & K & K1 & K2 & K3). apply (ed_record_published _ k); [apply sample_scalar|exact K|exact K1|exact K2|left; exact K3].
  - intros dn sn D S. vm_compute in D, S. injection D as <-. injection S as <-. eexists. reflexivity.
  - reflexivity.
  - exists o. intros sk. split; [exact Sg|]. assert (Ed25519Sha256 <> RsaSha1) as Na by discriminate.
    apply (arrivals ed_sample_record Ed25519Sha256 sk o (fun sig => ed_clash sha512 (hash_fn real_crypto Sha256) ed_sample_public (s_signature_data sig)) Na Sg).
    intros now headers' body' name' r' R.
    destruct (Th _ _ _ _ _ R) as (sig & data & data' & err & _ & _ & F & S & _). exists sig, data, data', err. split; [exact F|exact S].
Qed.
