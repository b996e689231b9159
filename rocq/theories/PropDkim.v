(** Properties C73, C74: the validity of signatures. *)

From Coq Require Import String List Permutation.
From Verif Require Import Base Utf8 Base64 Canon BodyHash Header Domain Signature KeyRecord Crypto TagList Format Sign Verify
  SpecText SpecCanon SpecHash SpecHeader SpecTag SpecDomain SpecSig SpecRecord SpecFormat SpecSign SpecOutput SpecVerify SpecEnd SpecDkim
  SigProofs RecordProofs HeaderProofs VerifyFacts DkimProofs Lib Sample PropDomain PropSign PropOutput PropVerify PropEnd.
Import ListNotations.
Open Scope N_scope.

(** ** A sample: a signature by another program *)

(** b= in the middle, with whitespace here and there *)
Definition foreign_start : str := crlf_lines (lit " v = 1 ; made_by=another program;
	s=A-Very.long-Selector.name; d=Example.COM;
 h=Subject : From:
  Subject;	a
 =
 Rsa-Sha256
 ; b	=").
Definition foreign_end (canon : string) (bh : list byte) : str :=
  lit "; c=" ++ lit canon ++ lit "; i=@mail.example.com; bh=" ++ encode_base64 bh.
Definition foreign_value (alg : CanonAlg) (canon : string) (bh : list byte) : str :=
  let data := header_hash_input alg sample_headers (map lit ["Subject"; "From"; "Subject"]%string)
              ++ canonical_field alg (lit "DKIM-Signature", foreign_start ++ foreign_end canon bh) in
  match rsa_sign sized_crypto Sha256 7 (toy_hash Sha256 data) with
  | Some b => let b64 := encode_base64 b in
              foreign_start ++ [9] ++ firstn 20 b64 ++ [13; 10; 32] ++ skipn 20 b64 ++ [13; 10; 32] ++ foreign_end canon bh
  | None => []
  end.
Definition foreign_headers (value : str) : list HeaderField := (lit "DKIM-Signature", as_bytes value) :: sample_headers.

Definition foreign_sig (value : str) : DkimSig :=
  match sig_from_str false ascii_idna value with
  | Val (Ok s) => s
  | _ => mkSig RsaSha256 [] [] (mkCanon Simple Simple) [] [] None None [] None None [] []
  end.
Definition sample_record : KeyRecord :=
  match record_from_str false (lit "p=AQc=") with
  | Val (Ok k) => k
  | _ => mkKeyRecord [] Rsa None [] [] [] []
  end.
Definition foreign_relaxed : str := foreign_value Relaxed "Relaxed/relaxed" (toy_hash Sha256 (concat output_chunks)).
(** simple; the hash is of one empty line, the canonical form of two empty lines *)
Definition foreign_simple : str := foreign_value Simple "simple" (toy_hash Sha256 [13; 10]).

Definition text_b (s : str) : bool := forallb (fun c => c <? 128) s.
Lemma text_b_scalar : forall s, text_b s = true -> Forall is_scalar s.
Proof.
  intros s H. unfold text_b in H. rewrite forallb_forall in H. apply Forall_forall. intros c Hc. specialize (H c Hc). unfold is_scalar. lia.
Qed.

Lemma foreign_signed : forall canonical value alg canon bh body,
  let sig := foreign_sig value in
  match sig_from_str false ascii_idna value with Val (Ok _) => True | _ => False end ->
  text_b value = true ->
  c_header (s_canonicalization sig) = alg -> s_signed_headers sig = map lit ["Subject"; "From"; "Subject"]%string ->
  s_algorithm sig = RsaSha256 ->
  make_original_dkim_sig value = foreign_start ++ foreign_end canon bh ->
  rsa_sign sized_crypto Sha256 7 (toy_hash Sha256 (header_hash_input alg sample_headers (map lit ["Subject"; "From"; "Subject"]%string)
              ++ canonical_field alg (lit "DKIM-Signature", as_bytes (foreign_start ++ foreign_end canon bh)))) = Some (s_signature_data sig) ->
  (exists rest, body_hashed ascii_env canonical sig body rest) ->
  signed_by ascii_env canonical (SkRsa (C := sized_crypto) 7) sample_headers body (lit "DKIM-Signature") value sig.
Proof.
  intros canonical value alg canon bh body sig P T Hc Hn Ha Hr Hs (rest & B).
  destruct (sig_from_str false ascii_idna value) as [[sg|]|] eqn:Q; try contradiction.
  assert (sig = sg) as Es by (unfold sig, foreign_sig; rewrite Q; reflexivity). clearbody sig. subst sg.
  apply sig_ok_iff in Q as (tags & Q & S). eexists tags, _, rest.
  split; [apply text_b_scalar; exact T|]. split; [apply tags_of_iff; exact Q|]. split; [exact S|].
  split; [apply (signed_data_iff ascii_env); [apply tags_of_iff; exact Q|exact S|reflexivity]|].
  split; [|exact B]. rewrite Hc, Hn, Ha, Hr. exact Hs.
Qed.

Lemma sample_key : forall sig config, s_algorithm sig = RsaSha256 -> cf_min_key_bits config = 1024 ->
  key_for ascii_env sig config (as_bytes (lit "p=AQc=")) sample_record (VkRsa (C := sized_crypto) 7).
Proof.
  intros sig config Ha Hb. unfold key_for. rewrite Ha, Hb.
  split.
  - destruct (record_from_str false (lit "p=AQc=")) as [[k|]|] eqn:K; [|vm_compute in K; discriminate K..].
    assert (sample_record = k) as -> by (unfold sample_record; rewrite K; reflexivity).
    apply record_ok_iff in K as (tags & T & R). exists (lit "p=AQc="), tags. rewrite tags_of_iff.
    split; [apply text_b_scalar; vm_compute; reflexivity|auto].
  - split; [vm_compute; reflexivity|]. split; [vm_compute; discriminate|]. split; [vm_compute; auto|]. split; [intros []|].
    split; [apply ki_spki; vm_compute; reflexivity|]. intros pk X. injection X as <-. vm_compute. discriminate.
Qed.

Lemma sample_keys : keys_match ascii_env (SkRsa (C := sized_crypto) 7) (VkRsa (C := sized_crypto) 7).
Proof. intros a digest sig X. cbn in *. injection X as <-. apply leqb_refl. Qed.

Lemma sample_pub : forall sig, idna_to_ascii ascii_idna (s_domain sig) = Some (lit "example.com") ->
  idna_to_ascii ascii_idna (s_selector sig) = Some (lit "a-very.long-selector.name") ->
  published ascii_env (sample_zone good_records) sig (as_bytes (lit "p=AQc=")).
Proof.
  intros sig Hd Hs. exists (lit "example.com"), (lit "a-very.long-selector.name"), (map (fun r => Ok (as_bytes r)) good_records).
  split; [exact Hd|]. split; [exact Hs|]. split; [vm_compute; reflexivity|]. vm_compute. auto.
Qed.

Lemma relaxed_signed : forall canonical, (forall alg, canonical alg (concat output_chunks) = concat output_chunks) ->
  signed_by ascii_env canonical (SkRsa (C := sized_crypto) 7) sample_headers (concat output_chunks) (lit "DKIM-Signature")
    foreign_relaxed (foreign_sig foreign_relaxed)
  /\ body_hashed ascii_env canonical (foreign_sig foreign_relaxed) (concat output_chunks) [].
Proof.
  intros canonical Hc.
  assert (body_hashed ascii_env canonical (foreign_sig foreign_relaxed) (concat output_chunks) []) as B.
  { exists (concat output_chunks). split; [rewrite Hc, app_nil_r; reflexivity|]. split; vm_compute; reflexivity. }
  split; [|exact B]. apply (foreign_signed canonical _ Relaxed "Relaxed/relaxed" (toy_hash Sha256 (concat output_chunks))); [vm_compute; exact I|vm_compute; reflexivity..|exists []; exact B].
Qed.

Lemma simple_signed : signed_by ascii_env rfc_body (SkRsa (C := sized_crypto) 7) sample_headers [13; 10; 13; 10] (lit "DKIM-Signature")
    foreign_simple (foreign_sig foreign_simple)
  /\ body_hashed ascii_env rfc_body (foreign_sig foreign_simple) [13; 10; 13; 10] [].
Proof.
  assert (body_hashed ascii_env rfc_body (foreign_sig foreign_simple) [13; 10; 13; 10] []) as B.
  { exists [13; 10]. split; [vm_compute; reflexivity|]. split; vm_compute; reflexivity. }
  split; [|exact B]. apply (foreign_signed rfc_body _ Simple "simple" (toy_hash Sha256 [13; 10])); [vm_compute; exact I|vm_compute; reflexivity..|exists []; exact B].
Qed.

Lemma foreign_fields : forall s, field_body_new (as_bytes s) = Some (as_bytes s) -> forallb (fun b => b <? 256) (as_bytes s) = true ->
  header_fields (foreign_headers s).
Proof.
  intros s H2 H3. constructor; [|exact sample_header_fields]. apply field_body_new_spec in H2.
  assert (field_name_new (lit "DKIM-Signature") = Some (lit "DKIM-Signature")) as H1 by (vm_compute; reflexivity). apply field_name_new_spec in H1.
  split; [tauto|]. split; [tauto|]. apply Forall_forall. intros b Hb. rewrite forallb_forall in H3. specialize (H3 b Hb). unfold is_byte. lia.
Qed.

Lemma foreign_good : forall headers sig, occurrences (lit "From") (map fst headers) = 1%nat -> occurrences (lit "From") (s_signed_headers sig) = 1%nat ->
  s_body_length sig = None -> s_expiration sig = None -> s_timestamp sig = None -> s_algorithm sig = RsaSha256 ->
  signature_good ascii_env headers default_config 1003 sig.
Proof.
  intros headers sig H1 H2 H3 H4 H5 H6. unfold signature_good. rewrite H3, H4, H5, H6.
  split; [intros n []|]. split; [intros n [<-|[]]; rewrite H1, H2; constructor|]. repeat split; discriminate.
Qed.

(** ** C73 *)

(** A result is success exactly if the signature is valid; success is reported with a
    signature and a key record that make it valid.  The canonical form of bodies is
    that of C02 and C03. *)
Theorem C73_exact : forall E w headers config chunks zone rs i name value r, world_ok w -> steady (w_resolver w) zone ->
  header_fields headers -> verify_message E w headers config chunks = Val (Some rs) -> result_for config headers rs i name value r ->
  let valid := valid_dkim E canonical_body zone config (w_clock w i) headers (concat chunks) name value in
  (vr_status r = Success <-> exists sig k, valid sig k)
  /\ (vr_status r = Success -> exists sig k, vr_signature r = Some sig /\ vr_key_record r = Some k /\ valid sig k)
  /\ (forall sig k, valid sig k -> vr_signature r = Some sig).
Proof. exact success_exact. Qed.
Print Assumptions C73_exact.

(** The same with the canonical form of the RFC, for bodies other than the two corner
    cases (for the canonicalization the signature names). *)
Theorem C73_rfc : forall E w headers config chunks zone rs i name value r, world_ok w -> steady (w_resolver w) zone ->
  header_fields headers -> verify_message E w headers config chunks = Val (Some rs) -> result_for config headers rs i name value r ->
  let valid := valid_dkim E rfc_body zone config (w_clock w i) headers (concat chunks) name value in
  (forall sig, vr_signature r = Some sig -> regular_body (c_body (s_canonicalization sig)) (concat chunks)) ->
  (vr_status r = Success <-> exists sig k, valid sig k)
  /\ (vr_status r = Success -> exists sig k, vr_signature r = Some sig /\ vr_key_record r = Some k /\ valid sig k).
Proof. exact success_rfc. Qed.
Print Assumptions C73_rfc.

(** ** C74 *)

(** A signature made by any program, in whatever layout, put on top of the header,
    perhaps with other fields not covered. *)
Theorem C74_any_signer : forall E w config headers above below body chunks name s sig zone rs r key vkey txt k,
  signed_by E canonical_body key headers body name s sig ->
  let extra := above ++ (name, as_bytes s) :: below in
  world_ok w -> steady (w_resolver w) zone -> header_fields (extra ++ headers) ->
  not_oversigned (s_signed_headers sig) headers extra -> concat chunks = body ->
  signature_good E (extra ++ headers) config (w_clock w (length above)) sig ->
  (cf_forbid_unsigned_content config = true -> body_hashed E canonical_body sig body []) ->
  published E zone sig txt -> key_for E sig config txt k vkey -> keys_match E key vkey ->
  verify_message E w (extra ++ headers) config chunks = Val (Some rs) ->
  result_for config (extra ++ headers) rs (length above) name (as_bytes s) r ->
  vr_status r = Success /\ vr_signature r = Some sig.
Proof. exact signed_by_any. Qed.
Print Assumptions C74_any_signer.

Theorem C74_rfc_signer : forall E w config headers above below body chunks name s sig zone rs r key vkey txt k,
  signed_by E rfc_body key headers body name s sig ->
  regular_body (c_body (s_canonicalization sig)) body ->
  let extra := above ++ (name, as_bytes s) :: below in
  world_ok w -> steady (w_resolver w) zone -> header_fields (extra ++ headers) ->
  not_oversigned (s_signed_headers sig) headers extra -> concat chunks = body ->
  signature_good E (extra ++ headers) config (w_clock w (length above)) sig ->
  (cf_forbid_unsigned_content config = true -> body_hashed E rfc_body sig body []) ->
  published E zone sig txt -> key_for E sig config txt k vkey -> keys_match E key vkey ->
  verify_message E w (extra ++ headers) config chunks = Val (Some rs) ->
  result_for config (extra ++ headers) rs (length above) name (as_bytes s) r ->
  vr_status r = Success /\ vr_signature r = Some sig.
Proof. exact signed_by_rfc. Qed.
Print Assumptions C74_rfc_signer.

(** what is signed is determined by the text of the signature *)
Theorem C74_signed_data_unique : forall E headers sig name s tags data data',
  tags_of s tags -> signature_of (env_pre E) (env_idna E) tags sig ->
  signed_data headers sig name s tags data -> signed_data headers sig name s tags data' -> data = data'.
Proof. intros E headers sig name s tags data data' T S D D'. apply (signed_data_iff E) in D, D'; try assumption. congruence. Qed.
Print Assumptions C74_signed_data_unique.

(** Without the condition on bodies: a signature made, by the RFC, for a body of two
    empty lines is not accepted. *)
Theorem C74_regular_refuted : ~ forall E w config headers above below body chunks name s sig zone rs r key vkey txt k,
  signed_by E rfc_body key headers body name s sig ->
  let extra := above ++ (name, as_bytes s) :: below in
  world_ok w -> steady (w_resolver w) zone -> header_fields (extra ++ headers) ->
  not_oversigned (s_signed_headers sig) headers extra -> concat chunks = body ->
  signature_good E (extra ++ headers) config (w_clock w (length above)) sig ->
  (cf_forbid_unsigned_content config = true -> body_hashed E rfc_body sig body []) ->
  published E zone sig txt -> key_for E sig config txt k vkey -> keys_match E key vkey ->
  verify_message E w (extra ++ headers) config chunks = Val (Some rs) ->
  result_for config (extra ++ headers) rs (length above) name (as_bytes s) r ->
  vr_status r = Success /\ vr_signature r = Some sig.
Proof.
  intros H.
  destruct (verify_message ascii_env (sample_world 20 good_records) (foreign_headers foreign_simple) default_config [[13; 10; 13; 10]])
    as [[[|r rest]|]|] eqn:V; [vm_compute in V; discriminate V| |vm_compute in V; discriminate V..].
  assert (vr_status r <> Success) as N by (vm_compute in V; injection V as <- _; discriminate).
  apply N. destruct simple_signed as [Sg B].
  eapply (H ascii_env (sample_world 20 good_records) default_config sample_headers [] [] _ [[13; 10; 13; 10]] _ _ _ (sample_zone good_records) _ r).
  - exact Sg.
  - apply sample_world_ok.
  - apply sample_steady.
  - apply foreign_fields; vm_compute; reflexivity.
  - intros n f Hn [<-|[]] S. exfalso. vm_compute in Hn, S. destruct Hn as [<-|[<-|[<-|[]]]]; discriminate S.
  - reflexivity.
  - apply foreign_good; vm_compute; reflexivity.
  - intros _. exact B.
  - apply sample_pub; vm_compute; reflexivity.
  - apply sample_key; vm_compute; reflexivity.
  - exact sample_keys.
  - exact V.
  - exists 0%nat. split; [vm_compute; reflexivity|reflexivity].
Qed.
Print Assumptions C74_regular_refuted.

Example C73_example : exists rs r sig k,
  world_ok (sample_world 20 good_records) /\ steady (w_resolver (sample_world 20 good_records)) (sample_zone good_records)
  /\ header_fields (foreign_headers foreign_relaxed)
  /\ verify_message ascii_env (sample_world 20 good_records) (foreign_headers foreign_relaxed) default_config output_chunks = Val (Some rs)
  /\ result_for default_config (foreign_headers foreign_relaxed) rs 0 (lit "DKIM-Signature") (as_bytes foreign_relaxed) r
  /\ vr_status r = Success /\ vr_signature r = Some sig /\ regular_body (c_body (s_canonicalization sig)) (concat output_chunks)
  /\ valid_dkim ascii_env rfc_body (sample_zone good_records) default_config 1003 (foreign_headers foreign_relaxed) (concat output_chunks)
       (lit "DKIM-Signature") (as_bytes foreign_relaxed) sig k.
Proof.
  destruct (verify_message ascii_env (sample_world 20 good_records) (foreign_headers foreign_relaxed) default_config output_chunks)
    as [[[|r rest]|]|] eqn:V; [vm_compute in V; discriminate V| |vm_compute in V; discriminate V..].
  destruct (relaxed_signed rfc_body) as [Sg B]; [intros []; vm_compute; reflexivity|].
  exists (r :: rest), r, (foreign_sig foreign_relaxed), sample_record.
  split; [apply sample_world_ok|]. split; [apply sample_steady|]. split; [apply foreign_fields; vm_compute; reflexivity|].
  split; [reflexivity|]. split; [exists 0%nat; split; [vm_compute; reflexivity|reflexivity]|].
  split; [vm_compute in V; injection V as <- _; reflexivity|]. split; [vm_compute in V; injection V as <- _; vm_compute; reflexivity|].
  split; [vm_compute; reflexivity|].
  eapply (signed_valid ascii_env _ _ _ sample_headers [(lit "DKIM-Signature", as_bytes foreign_relaxed)]).
  - exact Sg.
  - apply foreign_fields; vm_compute; reflexivity.
  - intros n f Hn [<-|[]] S. exfalso. vm_compute in Hn, S. destruct Hn as [<-|[<-|[<-|[]]]]; discriminate S.
  - apply foreign_good; vm_compute; reflexivity.
  - intros _. exact B.
  - apply sample_pub; vm_compute; reflexivity.
  - apply sample_key; vm_compute; reflexivity.
  - exact sample_keys.
Qed.

Example C74_example :
  let extra := [(lit "Received", lit " by y"); (lit "DKIM-Signature", as_bytes foreign_relaxed); (lit "X", [])] in
  signed_by ascii_env rfc_body (SkRsa (C := sized_crypto) 7) sample_headers (concat output_chunks) (lit "DKIM-Signature")
    foreign_relaxed (foreign_sig foreign_relaxed)
  /\ not_oversigned (s_signed_headers (foreign_sig foreign_relaxed)) sample_headers extra
  /\ signature_good ascii_env (extra ++ sample_headers) default_config 1003 (foreign_sig foreign_relaxed)
  /\ match verify_message ascii_env (sample_world 20 good_records) (extra ++ sample_headers) default_config output_chunks with
     | Val (Some rs) => map vr_status rs = [Success]
     | _ => False
     end.
Proof.
  split; [apply relaxed_signed; intros []; vm_compute; reflexivity|]. split; [|split; [apply foreign_good; vm_compute; reflexivity|vm_compute; reflexivity]].
  intros n f Hn Hf S. exfalso. vm_compute in Hn. destruct Hf as [<-|[<-|[<-|[]]]]; vm_compute in S; destruct Hn as [<-|[<-|[<-|[]]]]; discriminate S.
Qed.
