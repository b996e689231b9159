(** Properties C37, C53, C54: signing, then verifying. *)

From Coq Require Import String List Permutation.
From Verif Require Import Base Utf8 Canon BodyHash Header Domain Signature KeyRecord Crypto TagList Format Sign Verify
  SpecText SpecCanon SpecHash SpecHeader SpecTag SpecDomain SpecSig SpecRecord SpecFormat SpecSign SpecOutput SpecVerify SpecEnd
  WidthProofs OutputChars VerifyFacts EndProofs Lib Sample PropDomain PropSign PropOutput PropVerify.
Import ListNotations.
Open Scope N_scope.

(** ** C37 *)

(** The field made when signing is put on top of the header, perhaps with other
    fields around it that the signature does not cover.  When the body is the same
    (divided into chunks in another way, perhaps), the signature meets the
    verifier's policy, and a record for the key is published, then its result is
    success, and it is reported as it was written. *)
Theorem C37_sign_then_verify_partial : forall E w config headers above below chunks chunks' clock j r o answer rs res,
  idna_ok (env_idna E) -> crypto_nonempty (env_crypto E) ->
  readable_output E headers chunks clock j r o ->
  let extra := above ++ signature_field o :: below in
  not_oversigned (s_signed_headers (so_signature o)) headers extra ->
  concat chunks' = concat chunks ->
  signature_good E (extra ++ headers) config (w_clock w (length above)) (so_signature o) ->
  content_covered E r config (concat chunks) ->
  key_published E r config answer ->
  evaluation E w (extra ++ headers) config chunks' answer rs ->
  result_for config (extra ++ headers) rs (length above) (so_header_name o) (as_bytes (so_header_value o)) res ->
  vr_status res = Success /\ vr_index res = length above
  /\ exists sig', vr_signature res = Some sig' /\ written_signature (env_idna E) (r_format E r) (so_signature o) sig'.
Proof. exact end_to_end. Qed.
Print Assumptions C37_sign_then_verify_partial.

(** With automatic header selection and the default configuration *)
Theorem C37_default_partial : forall E w headers chunks chunks' clock j r o answer rs,
  idna_ok (env_idna E) -> crypto_nonempty (env_crypto E) ->
  readable_output E headers chunks clock j r o ->
  r_header_selection E r = Auto -> r_algorithm E r <> RsaSha1 ->
  (forall l, s_body_length (so_signature o) = Some l -> l <= env_usize_max E) ->
  in_time E r (clock j) default_config (w_clock w 0) ->
  concat chunks' = concat chunks ->
  key_published E r default_config answer ->
  evaluation E w (signature_field o :: headers) default_config chunks' answer rs ->
  exists res rest, rs = res :: rest /\ vr_index res = 0%nat /\ vr_status res = Success.
Proof. exact auto_end_to_end. Qed.
Print Assumptions C37_default_partial.

(** A request as made by [SignRequest::new] *)
Theorem C37_fresh_partial : forall E w d s alg key headers chunks chunks' clock j o zone,
  idna_ok (env_idna E) -> crypto_nonempty (env_crypto E) ->
  let r := request_new E d s alg key in
  Forall is_scalar d -> Forall is_scalar s -> alg <> RsaSha1 ->
  signed_output E headers chunks clock j r o ->
  world_ok w -> steady (w_resolver w) zone -> key_published E r default_config (fun p => zone (key_name p)) ->
  concat chunks' = concat chunks ->
  let signed := clock j in let now := w_clock w 0 in
  signed < 2^64 - 1 -> signed <= now + 300 -> now < signed + 432000 + 300 -> now < 2^64 - 1 ->
  exists res rest, verify_message E w (signature_field o :: headers) default_config chunks' = Val (Some (res :: rest))
    /\ vr_index res = 0%nat /\ vr_status res = Success.
Proof. exact fresh_end_to_end. Qed.
Print Assumptions C37_fresh_partial.

(** The condition on oversigning is needed: with a DKIM-Signature name to spare in
    h=, the field is itself covered once it is in place. *)
Definition oversigning_request : SignRequest ascii_env :=
  mkRequest ascii_env (SkRsa (C := sized_crypto) 7) RsaSha256 (mkCanon Relaxed Relaxed) (lit "example.com")
    (Manual [lit "From"; lit "DKIM-Signature"])
    None NoLimit (lit "a-very.long-selector.name") TsNow None false [] default_format.
Definition oversigning_output : SigningOutput :=
  match sign_message ascii_env (fun l => l) sample_headers [oversigning_request] output_chunks (fun _ => 1000) with
  | Val (Ok [Ok o]) => o
  | _ => mkOutput [] [] (mkSig RsaSha256 [] [] (mkCanon Simple Simple) [] [] None None [] None None [] [])
  end.

Lemma oversigning_signed : signed_output ascii_env sample_headers output_chunks (fun _ => 1000) 0 oversigning_request oversigning_output.
Proof. apply ascii_signed; try (vm_compute; auto; fail). exact sample_header_fields. Qed.

Lemma sample_published : forall (r : SignRequest ascii_env), r_signing_key ascii_env r = SkRsa (C := sized_crypto) 7 ->
  r_algorithm ascii_env r = RsaSha256 ->
  idna_to_ascii ascii_idna (r_domain ascii_env r) = Some (lit "example.com") ->
  idna_to_ascii ascii_idna (r_selector ascii_env r) = Some (lit "a-very.long-selector.name") ->
  key_published ascii_env r default_config (fun p => sample_zone good_records (key_name p)).
Proof.
  intros r Hk Ha Hd Hs. exists (lit "example.com"), (lit "a-very.long-selector.name"), (map (fun r => Ok (as_bytes r)) good_records), (Ok (as_bytes (lit "p=AQc="))).
  split; [exact Hd|]. split; [exact Hs|]. split; [vm_compute; reflexivity|]. split; [vm_compute; auto|].
  destruct (record_from_str false (lit "p=AQc=")) as [[k|]|] eqn:K; [|vm_compute in K; discriminate K..].
  exists (lit "p=AQc="), k, (VkRsa (C := sized_crypto) 7). rewrite Hk, Ha. vm_compute in K. injection K as <-.
  split; [constructor; change (lit "p=AQc=") with [112; 61; 65; 81; 99; 61]; unfold is_scalar; repeat constructor; lia|].
  split; [vm_compute; reflexivity|]. split; [reflexivity|]. split; [discriminate|]. split; [cbn; auto|].
  split; [intros []|]. split; [apply ki_spki; reflexivity|]. split.
  - intros pk X. injection X as <-. cbn. lia.
  - intros a digest sig X. cbn in *. injection X as <-. apply leqb_refl.
Qed.

Lemma oversigning_readable : readable_output ascii_env sample_headers output_chunks (fun _ => 1000) 0 oversigning_request oversigning_output.
Proof.
  split; [exact oversigning_signed|]. split; [|split; [reflexivity|split; constructor]].
  constructor; try discriminate.
  - cbn [r_domain r_selector r_identity oversigning_request]. repeat split; try (repeat constructor; cbn; lia). discriminate.
  - intros [].
  - intros t X. injection X as <-. cbn. split; [lia|]. intros Y. destruct (Y eq_refl).
Qed.

Lemma sample_good : forall headers sig, occurrences (lit "From") (map fst headers) = 1%nat -> occurrences (lit "From") (s_signed_headers sig) = 1%nat ->
  (forall l, s_body_length sig = Some l -> l = 4) ->
  (forall x, s_expiration sig = Some x -> x = 1009) -> s_timestamp sig = Some 1000 -> s_algorithm sig = RsaSha256 ->
  signature_good ascii_env headers default_config 1003 sig.
Proof.
  intros headers sig H1 H2 HL H3 H4 H5. split; [intros n []|]. split; [intros n [<-|[]]; rewrite H1, H2; constructor|].
  split; [intros l Hl; rewrite (HL l Hl); vm_compute; discriminate|].
  split; [intros _ x Hx; rewrite (H3 x Hx); split; reflexivity|]. split; [|intros _; rewrite H5; reflexivity].
  intros _ t Ht. rewrite H4 in Ht. injection Ht as <-. vm_compute. discriminate.
Qed.

Theorem C37_oversigned_refuted : ~ forall E w config headers chunks clock j r o answer rs res,
  idna_ok (env_idna E) -> crypto_nonempty (env_crypto E) ->
  readable_output E headers chunks clock j r o ->
  signature_good E (signature_field o :: headers) config (w_clock w 0) (so_signature o) ->
  content_covered E r config (concat chunks) ->
  key_published E r config answer ->
  evaluation E w (signature_field o :: headers) config chunks answer rs ->
  result_for config (signature_field o :: headers) rs 0 (so_header_name o) (as_bytes (so_header_value o)) res ->
  vr_status res = Success.
Proof.
  intros H. set (hs := signature_field oversigning_output :: sample_headers).
  destruct (verify_message ascii_env (sample_world 20 good_records) hs default_config output_chunks) as [[[|res rest]|]|] eqn:V;
    [vm_compute in V; discriminate V| |vm_compute in V; discriminate V..].
  assert (vr_status res <> Success) as N by (vm_compute in V; injection V as <- _; discriminate).
  assert (header_fields hs) as F.
  { destruct (field_named ascii_env _ _ _ _ _ _ ascii_idna_ok oversigning_readable) as [_ Ff]. apply Forall_cons_iff in Ff as [Ff _].
    constructor; [exact Ff|exact sample_header_fields]. }
  apply N. eapply (H ascii_env (sample_world 20 good_records) default_config sample_headers output_chunks (fun _ => 1000) 0%nat
    oversigning_request oversigning_output).
  - exact ascii_idna_ok.
  - exact sized_nonempty.
  - exact oversigning_readable.
  - apply sample_good; try (vm_compute; reflexivity); vm_compute; discriminate.
  - intros X. discriminate X.
  - apply sample_published; reflexivity.
  - apply steady_evaluation; [apply sample_world_ok|exact F|apply sample_steady|exact V].
  - exists 0%nat. split; [vm_compute; reflexivity|reflexivity].
Qed.
Print Assumptions C37_oversigned_refuted.

(** the sample signature among two other ones *)
Lemma output_readable : readable_output ascii_env sample_headers output_chunks (fun _ => 1000) 0 output_request output_sample.
Proof.
  destruct C35_example as (_ & _ & S & R & Z & _). split; [exact S|]. split; [exact R|]. split; [reflexivity|]. split; [exact Z|].
  constructor; [|constructor]. change (Forall is_scalar [98; 97; 114]). unfold is_scalar. repeat constructor; lia.
Qed.

Example C37_example :
  let above := [(lit "dkim-signature", lit " v=1; a=rsa-sha256")] in
  let below := [signature_field output_sample] in
  let extra := above ++ signature_field output_sample :: below in
  readable_output ascii_env sample_headers output_chunks (fun _ => 1000) 0 output_request output_sample
  /\ not_oversigned (s_signed_headers (so_signature output_sample)) sample_headers extra
  /\ concat [lit "H"; []; lit "i"; [13]; [10]] = concat output_chunks
  /\ signature_good ascii_env (extra ++ sample_headers) default_config (w_clock (sample_world 20 good_records) (length above)) (so_signature output_sample)
  /\ content_covered ascii_env output_request default_config (concat output_chunks)
  /\ key_published ascii_env output_request default_config (fun p => sample_zone good_records (key_name p))
  /\ evaluation ascii_env (sample_world 20 good_records) (extra ++ sample_headers) default_config [lit "H"; []; lit "i"; [13]; [10]]
       (fun p => sample_zone good_records (key_name p)) (sample_results default_config good_records)
  /\ result_for default_config (extra ++ sample_headers) (sample_results default_config good_records) (length above)
       (so_header_name output_sample) (as_bytes (so_header_value output_sample))
       (nth 1 (sample_results default_config good_records) (mkVResult (Failure VTimeout) 0 None None)).
Proof.
  cbv zeta. split; [exact output_readable|]. split.
  { intros n f Hn Hf S. exfalso. assert (lower (fst f) = lit "dkim-signature") as X
      by (repeat (destruct Hf as [<-|Hf]; [vm_compute; reflexivity|]); destruct Hf).
    assert (In n [lit "Subject"; lit "To"; lit "From"]) as Y by exact Hn. unfold same_name in S. rewrite X in S.
    repeat (destruct Y as [<-|Y]; [vm_compute in S; discriminate S|]). destruct Y. }
  split; [reflexivity|]. split.
  { apply sample_good; try (vm_compute; reflexivity); intros x X; vm_compute in X; injection X as <-; reflexivity. }
  split; [intros X; discriminate X|]. split; [apply sample_published; reflexivity|]. split.
  - apply steady_evaluation; [apply sample_world_ok|exact signed_header_fields|apply sample_steady|vm_compute; reflexivity].
  - exists 1%nat. split; vm_compute; reflexivity.
Qed.

(** ** C53 *)

(** With automatic header selection, whatever fields other than From are added,
    the signature passes the checks of the default configuration. *)
Theorem C53_default_policy : forall E headers extra chunks clock j r o now, signed_output E headers chunks clock j r o ->
  r_header_selection E r = Auto ->
  (forall f, In f extra -> ~ same_name (fst f) (lit "From")) ->
  (forall l, s_body_length (so_signature o) = Some l -> l <= env_usize_max E) ->
  r_algorithm E r <> RsaSha1 ->
  in_time E r (clock j) default_config now ->
  signature_good E (extra ++ headers) default_config now (so_signature o).
Proof. exact default_good. Qed.
Print Assumptions C53_default_policy.

(** A request as made by [SignRequest::new] is good for five days, and five
    minutes before and after. *)
Theorem C53_fresh_request : forall E d s alg key headers extra chunks clock j o now,
  signed_output E headers chunks clock j (request_new E d s alg key) o ->
  (forall f, In f extra -> ~ same_name (fst f) (lit "From")) ->
  alg <> RsaSha1 -> now < 2^64 - 1 -> clock j < 2^64 - 432001 ->
  (signature_good E (extra ++ headers) default_config now (so_signature o)
   <-> clock j <= now + 300 /\ now < clock j + 432000 + 300).
Proof. exact fresh_policy. Qed.
Print Assumptions C53_fresh_request.

Definition fresh_request : SignRequest ascii_env :=
  request_new ascii_env (lit "Example.com") (lit "a-very.long-selector.name") RsaSha256 (SkRsa (C := sized_crypto) 7).
Definition fresh_output : SigningOutput :=
  match sign_message ascii_env (fun l => l) sample_headers [fresh_request] output_chunks (fun _ => 1000) with
  | Val (Ok [Ok o]) => o
  | _ => mkOutput [] [] (mkSig RsaSha256 [] [] (mkCanon Simple Simple) [] [] None None [] None None [] [])
  end.

Example C53_example : signed_output ascii_env sample_headers output_chunks (fun _ => 1000) 0 fresh_request fresh_output
  /\ key_published ascii_env fresh_request default_config (fun p => sample_zone good_records (key_name p))
  /\ in_time ascii_env fresh_request 1000 default_config 433299 /\ ~ in_time ascii_env fresh_request 1000 default_config 433300
  /\ match verify_message ascii_env (sample_world 20 good_records) (signature_field fresh_output :: sample_headers) default_config output_chunks with
     | Val (Some rs) => map vr_status rs = [Success]
     | _ => False
     end.
Proof.
  split; [apply ascii_signed; try (vm_compute; auto; fail); exact sample_header_fields|]. split; [apply sample_published; reflexivity|].
  split; [|split; [|vm_compute; reflexivity]].
  - apply fresh_in_time; reflexivity || discriminate.
  - intros [_ X]. specialize (X _ eq_refl). destruct X as [X _]. vm_compute in X. discriminate.
Qed.

(** ** C54 *)

(** With [ascii_only], the header value is all ASCII, if additional tags are. *)
Theorem C54_ascii_output : forall E headers chunks clock j r o, signed_output E headers chunks clock j r o ->
  of_ascii_only (r_format E r) = true ->
  Forall (Forall (fun c => c < 128)) (map snd (r_ext_tags E r)) -> Forall (fun c => c < 128) (so_header_value o).
Proof.
  intros E headers chunks clock j r o H A X. destruct (signed_output_of _ _ _ _ _ _ _ H) as (pre & post & n & b64 & O).
  exact (output_ascii _ _ _ _ _ _ _ _ _ _ _ _ O A X).
Qed.
Print Assumptions C54_ascii_output.

Definition foreign_env : Env := mkEnv false u64_max sample_idna sized_crypto.
Definition foreign_request (ascii : bool) : SignRequest foreign_env :=
  mkRequest foreign_env (SkRsa (C := sized_crypto) 7) RsaSha256 (mkCanon Relaxed Relaxed) (u "例子.中国") Auto
    (Some (mkIdentity (Some (u "é")) (u "☕.例子.中国"))) NoLimit (u "☕") TsNone None false
    [] (mkFormat (lit "Dkim-Signature") 78 (lit "  ") None ascii).

Example C54_example :
  (signed_output ascii_env sample_headers output_chunks (fun _ => 1000) 0 output_request output_sample
   /\ of_ascii_only (r_format ascii_env output_request) = true
   /\ Forall (Forall (fun c => c < 128)) (map snd (r_ext_tags ascii_env output_request)))
  /\ map (fun ascii =>
       match sign_message foreign_env (fun l => l) sample_headers [foreign_request ascii] output_chunks (fun _ => 1000) with
       | Val (Ok [Ok o]) => Some (firstn 44 (so_header_value o))
       | _ => None
       end) [true; false]
     = map (fun s => Some (crlf_lines s))
         [lit " v=1; d=xn--fsqu00a.xn--fiqs8s;
  i==C3=A9@";
          u " v=1; d=例子.中国; i=é@☕.例子.中国; s=☕; a=rsa-sha25"].
Proof.
  split; [|vm_compute; reflexivity]. split; [exact output_signed|]. split; [reflexivity|]. constructor; [|constructor].
  change (Forall (fun c => c < 128) [98; 97; 114]). repeat constructor.
Qed.
