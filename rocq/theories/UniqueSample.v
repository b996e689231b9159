(** A sample: one Ed25519 signature for every sender. *)

From Coq Require Import String List NArith Permutation.
From Verif Require Import Base Utf8 Canon BodyHash Header TagList Domain Signature KeyRecord Crypto Base64 Format Sign Verify
  SpecText SpecCanon SpecHash SpecHeader SpecTag SpecDomain SpecSig SpecRecord SpecFormat SpecSign SpecOutput SpecVerify SpecEnd SpecDkim SpecCause SpecRsa SpecEd SpecReal SpecUnique
  Concrete SignProofs EndProofs RsaProofs EdEndProofs HeaderProofs SigProofs RecordProofs VerifyFacts DkimProofs ConcreteProofs EdSpecProofs RealProofs UniqueProofs UniqueEnd Lib Sample SampleRsa SampleEd
  PropDomain PropSign PropOutput PropVerify PropEnd PropDkim PropPrograms PropReal PropEd.
Import ListNotations.
Open Scope N_scope.

Definition weak_text : str :=
  lit " v=1; a=ed25519-sha256; c=relaxed/relaxed; d=example.com; s=a-very.long-selector.name; h=From; bh=47DEQpj8HBSa+/TImW+5JCeuQeRkm5NMpJWZG3hSuFU=; b="
  ++ encode_base64 (weak_public ++ repeat 0 32).
Definition weak_record_text : str := lit "k=ed25519; p=" ++ encode_base64 weak_public.
(** with the signature in other words *)
Definition weak_text2 : str := weak_text ++ lit " ".
Definition weak_headers (t : str) (from : list byte) : list HeaderField := [(lit "DKIM-Signature", as_bytes t); (lit "From", from)].
Definition weak_sig : DkimSig := Eval vm_compute in foreign_sig weak_text.
Definition weak_record : KeyRecord := Eval vm_compute in
  match record_from_str false weak_record_text with Val (Ok k) => k | _ => sample_record end.

Definition weak_data (t : str) (from : list byte) : list byte :=
  header_hash_input Relaxed (weak_headers t from) [lit "From"] ++ canonical_field Relaxed (lit "DKIM-Signature", as_bytes (make_original_dkim_sig t)).

Lemma weak_record_read : record_from_str false weak_record_text = Val (Ok weak_record).
Proof. vm_compute. reflexivity. Qed.
Lemma weak_body_hash : sha256 [] = s_body_hash weak_sig.
Proof. vm_compute. reflexivity. Qed.

Section WithText.
Variable t : str.
Hypothesis TB : Forall is_scalar t.
Hypothesis RD : sig_from_str false ascii_idna t = Val (Ok weak_sig).
Hypothesis FB : field_body_new (as_bytes t) = Some (as_bytes t).
Hypothesis BB : forallb (fun b => b <? 256) (as_bytes t) = true.

Lemma weak_fields : forall from, field_body from -> Forall is_byte from -> header_fields (weak_headers t from).
Proof.
  intros from F B.
  assert (forall n v, field_name_new n = Some n -> field_body v -> Forall is_byte v -> field_name n /\ field_body v /\ Forall is_byte v) as X.
  { intros n v H1 H2 H3. apply field_name_new_spec in H1. tauto. }
  pose proof FB as Y. apply field_body_new_spec in Y.
  constructor; [apply X; [vm_compute; reflexivity|tauto|apply all_bytes; exact BB]|].
  constructor; [apply X; [vm_compute; reflexivity|exact F|exact B]|constructor].
Qed.

Lemma weak_signed : forall from, signed_text ed_env (weak_headers t from) (lit "DKIM-Signature") (as_bytes t) weak_sig (weak_data t from).
Proof.
  intros from. pose proof RD as R. apply sig_ok_iff in R. destruct R as (tags & L & S). apply tags_of_iff in L.
  exists t, tags. split; [exact TB|]. split; [reflexivity|]. split; [exact L|]. split; [exact S|].
  apply (signed_data_iff ed_env _ _ _ _ _ _ L S). reflexivity.
Qed.

Lemma weak_verified : forall from, field_body from -> Forall is_byte from ->
  verified ed_env (weak_headers t from) [] (lit "DKIM-Signature") (as_bytes t) weak_sig weak_record.
Proof.
  intros from F B. pose proof (weak_fields from F B) as H. set (w := sample_world 20 [weak_record_text]). set (zone := sample_zone [weak_record_text]).
  assert (examined default_config (weak_headers t from) = [(0%nat, (lit "DKIM-Signature", as_bytes t))]) as Ex by reflexivity.
  destruct (verify_message_cases ed_env w (weak_headers t from) default_config [] (sample_world_ok _ _) H) as [(X & _)|(_ & rs & V & I)]; [rewrite Ex in X; discriminate X|].
  rewrite Ex in I. destruct rs as [|r [|]]; [discriminate I| |discriminate I].
  assert (result_for default_config (weak_headers t from) [r] 0 (lit "DKIM-Signature") (as_bytes t) r) as R. { exists 0%nat. rewrite Ex. auto. }
  assert (valid_signature (hash_fn real_crypto) sha512 ed_env canonical_body zone default_config (w_clock w 0) (weak_headers t from) [] (lit "DKIM-Signature") (as_bytes t) weak_sig weak_record) as Va.
  { pose proof RD as Rd. apply sig_ok_iff in Rd. destruct Rd as (tags & L & S). apply tags_of_iff in L.
    pose proof weak_record_read as Rr. apply record_ok_iff in Rr. destruct Rr as (rtags & Lr & Sr). apply tags_of_iff in Lr.
    exists t, tags, weak_record_text, rtags, (weak_data t from), [].
    split; [exact TB|]. split; [reflexivity|]. split; [exact L|]. split; [exact S|].
    split. { unfold signature_good. cbv zeta. split; [intros n []|]. split; [intros n [<-|[]]; vm_compute; apply le_n|]. repeat (split; [discriminate|]). reflexivity. }
    split. { exists (lit "example.com"), (lit "a-very.long-selector.name"), [Ok (as_bytes weak_record_text)]. split; [reflexivity|]. split; [reflexivity|]. split; [reflexivity|left; reflexivity]. }
    split; [apply text_b_scalar; vm_compute; reflexivity|]. split; [exact Lr|]. split; [exact Sr|]. split; [reflexivity|]. split; [left; reflexivity|].
    split; [intros [] |]. split. { apply (signed_data_iff ed_env _ _ _ _ _ _ L S). reflexivity. }
    split. { apply (by_ed25519 sha512 _ _ _ _ weak_public); [left; reflexivity|]. exact (weak_valid _). }
    split; [|reflexivity]. exists []. split; [reflexivity|]. split; [exact weak_body_hash|reflexivity]. }
  destruct (real_success _ _ _ _ _ _ _ _ _ _ _ _ _ (sample_world_ok _ _) (sample_steady _ _) H V R) as (X & Y & Z).
  pose proof (proj2 X (ex_intro _ weak_sig (ex_intro _ weak_record Va))) as Su. destruct (Y Su) as (sig & k & Sg & K & Vk).
  rewrite (Z _ _ Va) in Sg. injection Sg as <-.
  exists w, zone, default_config, [], [r], 0%nat, r. split; [apply sample_world_ok|]. split; [apply sample_steady|]. split; [exact H|]. split; [reflexivity|].
  split; [exact V|]. split; [exact R|]. split; [exact Su|]. split; [exact (Z _ _ Va)|]. rewrite K. f_equal.
  destruct Vk as (s & tags & rt & rtags & data & rest & _ & _ & _ & _ & _ & (d & sl & txts & _ & _ & Zo & I') & Rs & Rt & Rr & _).
  assert (as_bytes rt = as_bytes weak_record_text) as Eq.
  { unfold sample_zone in Zo. destruct (leqb _ _); [|discriminate Zo]. injection Zo as <-. destruct I' as [I'|[]]. injection I' as <-. reflexivity. }
  apply Utf8Proofs.as_bytes_inj in Eq; [|exact Rs|apply text_b_scalar; vm_compute; reflexivity]. subst rt.
  assert (record_from_str false weak_record_text = Val (Ok k)) as Rd. { apply record_ok_iff. exists rtags. split; [apply tags_of_iff; exact Rt|exact Rr]. }
  rewrite weak_record_read in Rd. injection Rd as <-. reflexivity.
Qed.

End WithText.

Lemma weak_good : forall t, text_b t = true -> sig_from_str false ascii_idna t = Val (Ok weak_sig) ->
  field_body_new (as_bytes t) = Some (as_bytes t) -> forallb (fun b => b <? 256) (as_bytes t) = true ->
  (forall from, signed_text ed_env (weak_headers t from) (lit "DKIM-Signature") (as_bytes t) weak_sig (weak_data t from))
  /\ forall from, field_body from -> Forall is_byte from ->
       verified ed_env (weak_headers t from) [] (lit "DKIM-Signature") (as_bytes t) weak_sig weak_record.
Proof.
  intros t T R F B. split; [intros from; apply weak_signed; auto using text_b_scalar|]. intros from X Y. apply weak_verified; auto using text_b_scalar.
Qed.

Lemma weak_good1 : (forall from, signed_text ed_env (weak_headers weak_text from) (lit "DKIM-Signature") (as_bytes weak_text) weak_sig (weak_data weak_text from))
  /\ forall from, field_body from -> Forall is_byte from ->
       verified ed_env (weak_headers weak_text from) [] (lit "DKIM-Signature") (as_bytes weak_text) weak_sig weak_record.
Proof. apply weak_good; vm_compute; reflexivity. Qed.
Lemma weak_good2 : (forall from, signed_text ed_env (weak_headers weak_text2 from) (lit "DKIM-Signature") (as_bytes weak_text2) weak_sig (weak_data weak_text2 from))
  /\ forall from, field_body from -> Forall is_byte from ->
       verified ed_env (weak_headers weak_text2 from) [] (lit "DKIM-Signature") (as_bytes weak_text2) weak_sig weak_record.
Proof. apply weak_good; vm_compute; reflexivity. Qed.

Lemma weak_from : forall s, field_body_new s = Some s -> forallb (fun b => b <? 256) s = true -> field_body s /\ Forall is_byte s.
Proof. intros s H B. apply field_body_new_spec in H. split; [tauto|apply all_bytes; exact B]. Qed.

Lemma weak_digests : hash_fn real_crypto (alg_hash (s_algorithm weak_sig)) (weak_data weak_text (lit " a@example.com"))
  <> hash_fn real_crypto (alg_hash (s_algorithm weak_sig)) (weak_data weak_text (lit " b@example.org")).
Proof.
  assert (forall d, hash_fn real_crypto (alg_hash (s_algorithm weak_sig)) d = sha256 d) as Hs by reflexivity.
  assert (leqb (sha256 (weak_data weak_text (lit " a@example.com"))) (sha256 (weak_data weak_text (lit " b@example.org"))) = false) as X by (vm_compute; reflexivity).
  intros Y. pose proof (eq_trans (eq_sym (Hs _)) (eq_trans Y (Hs _))) as Z. clear Y. apply leqb_eq in Z. rename Z into Y. rewrite X in Y. discriminate Y.
Qed.


(** A message verified with an Ed25519 key that belongs to a private key. *)
Definition ed_world : World := sample_world 20 [ed_sample_record].

Lemma ed_sample_read : exists k, record_from_str false ed_sample_record = Val (Ok k)
  /\ k_key_type k = Ed25519 /\ In Sha256 (k_hash_algorithms k) /\ k_key_data k = ed_sample_public.
Proof. eexists. split; [vm_compute; reflexivity|]. split; [reflexivity|]. split; [left; reflexivity|reflexivity]. Qed.

Lemma ed_verified : exists o rs r, let headers := signature_field o :: sample_headers in
  header_fields headers /\ verify_message ed_env ed_world headers default_config output_chunks = Val (Some rs)
  /\ result_for default_config headers rs 0 (so_header_name o) (as_bytes (so_header_value o)) r /\ vr_status r = Success.
Proof.
  set (sk := SkEd25519 (C := real_crypto) ed_sample_key).
  assert (Forall is_scalar (lit "Example.com") /\ Forall is_scalar (lit "a-very.long-selector.name")) as (Sd & Ss) by (split; apply sample_scalar).
  assert (domain_text ascii_idna (lit "Example.com") true) as Dd.
  { destruct (DomainProofs.domain_new_spec ascii_idna (lit "Example.com")) as (rd & X & Y). vm_compute in X. injection X as <-. exact (proj2 (proj1 (Y _) eq_refl)). }
  assert (domain_text ascii_idna (lit "a-very.long-selector.name") false) as Ds.
  { destruct (DomainProofs.selector_new_spec ascii_idna (lit "a-very.long-selector.name")) as (rd & X & Y). vm_compute in X. injection X as <-. exact (proj2 (proj1 (Y _) eq_refl)). }
  destruct (ed_end_to_end false (2^64 - 1) ascii_idna (@rev _) ed_world ed_sample_key ed_sample_public (lit "Example.com") (lit "a-very.long-selector.name")
    sample_headers output_chunks output_chunks short_clock (sample_zone [ed_sample_record])) as (o & Sg & res & rest & V & _ & Su).
  - exact ascii_idna_ok.
  - exact ed_sample_public_key.
  - exact Dd.
  - exact Ds.
  - exact Sd.
  - exact Ss.
  - intros l. symmetry. apply Permutation_rev.
  - exact sample_header_fields.
  - exists (lit "From", lit " me@example.com"). split; [right; left; reflexivity|reflexivity].
  - apply sample_world_ok.
  - apply sample_steady.
  - destruct ed_sample_read as (k & K & K1 & K2 & K3). apply (ed_record_published _ k); [apply sample_scalar|exact K|exact K1|exact K2|left; exact K3].
  - reflexivity.
  - reflexivity.
  - discriminate.
  - reflexivity.
  - reflexivity.
  - exists o, (res :: rest), res. cbv zeta.
    assert (signed_output ed_env sample_headers output_chunks short_clock 0 (request_new ed_env (lit "Example.com") (lit "a-very.long-selector.name") Ed25519Sha256 sk) o) as So.
    { split; [apply real_typed|]. split; [exact sample_header_fields|].
      exists (@rev _), [request_new ed_env (lit "Example.com") (lit "a-very.long-selector.name") Ed25519Sha256 sk], [Ok o].
      split; [constructor; [apply request_new_typed; assumption|constructor]|]. split; [intros l; symmetry; apply Permutation_rev|]. split; [exact Sg|split; reflexivity]. }
    assert (signed_before := eq_refl : (short_clock 0 <? 2 ^ 64 - 1) = true). apply N.ltb_lt in signed_before.
    destruct (field_named ed_env _ _ _ _ _ _ ascii_idna_ok (fresh_readable ed_env _ _ Ed25519Sha256 sk _ _ _ _ _ Sd Ss ltac:(discriminate) signed_before So)) as (Fn & Ff).
    split. { inversion Ff. constructor; [assumption|exact sample_header_fields]. }
    split; [exact V|]. split; [|exact Su].
    exists 0%nat. split; [|reflexivity]. unfold examined. change (cf_max_signatures default_config) with 10%nat. cbn [signature_fields signature_field fst].
    apply HeaderCanonProofs.same_nameb_iff in Fn. rewrite Fn. reflexivity.
Qed.

Lemma ed_sample_verified : exists headers body name value sig k data,
  verified ed_env headers body name value sig k /\ signed_text ed_env headers name value sig data /\ ed_key_of k ed_sample_public.
Proof.
  destruct ed_verified as (o & rs & r & F & V & R & S).
  destruct (real_success _ _ _ _ _ _ _ _ _ _ _ _ _ (sample_world_ok _ _) (sample_steady _ _) F V R) as (_ & X & _).
  destruct (X S) as (sig & k & Sg & K & Va).
  destruct Va as (s & tags & rt & rtags & data & rest & Sc & Ev & Ta & So & _ & (d & sl & txts & _ & _ & Z & I) & Rs & Rt & Rr & _ & _ & _ & Sd & _).
  exists (signature_field o :: sample_headers), (concat output_chunks), (so_header_name o), (as_bytes (so_header_value o)), sig, k, data.
  split. { exists ed_world, (sample_zone [ed_sample_record]), default_config, output_chunks, rs, 0%nat, r.
    split; [apply sample_world_ok|]. split; [apply sample_steady|]. auto 10. }
  split; [exists s, tags; auto|].
  destruct ed_sample_read as (k' & K' & T & _ & Da).
  assert (as_bytes rt = as_bytes ed_sample_record) as Eq.
  { unfold sample_zone in Z. destruct (leqb _ _); [|discriminate Z]. injection Z as <-. destruct I as [I|[]]. injection I as <-. reflexivity. }
  apply Utf8Proofs.as_bytes_inj in Eq; [|exact Rs|apply text_b_scalar; vm_compute; reflexivity]. subst rt.
  assert (record_from_str false ed_sample_record = Val (Ok k)) as Rd. { apply record_ok_iff. exists rtags. split; [apply tags_of_iff; exact Rt|exact Rr]. }
  rewrite K' in Rd. injection Rd as <-. split; [exact T|left; exact Da].
Qed.
