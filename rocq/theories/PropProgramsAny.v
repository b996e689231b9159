(** Property C97: what the verification program says of a message from the signing program,
    in whatever form it gets it. *)

From Coq Require Import String List NArith Permutation.
From Verif Require Import Base Utf8 Canon BodyHash Header TagList Domain Signature KeyRecord Crypto Base64 Format Sign Verify Pem Programs Debug
  SpecText SpecCanon SpecHash SpecHeader SpecTag SpecDomain SpecSig SpecRecord SpecFormat SpecSign SpecOutput SpecVerify SpecEnd SpecDkim SpecCause SpecRsa SpecEd SpecReal SpecUnique
  SpecTransit SpecAuthor SpecChange SpecReceived SpecPem SpecPrograms SpecDebug SpecProgramsAny
  Concrete SignProofs RsaProofs HeaderProofs HeaderCanonProofs VerifyProofs VerifyFacts EndProofs MessageProofs ProgramsProofs ConcreteProofs RealProofs TransitProofs ReceivedProofs ReceivedAny ProgramsAny Lib
  Sample SampleRsa SampleEd PropDomain PropSign PropOutput PropVerify PropEnd PropRsa PropPrograms PropPem PropReal PropEd PropInterop UniqueSample PropReceived.
Import ListNotations.
Open Scope N_scope.

(** With a RSA key.  The signing program prints a field.  The verification program is given
    any message that has this field among its first ten signatures.  The line it prints
    about it says what [program_checks] says. *)
Theorem C97_rsa : forall pre m idna order clock files zone program key_file dom sel stdin headers body pem bs n e d,
  let E := real_env pre m idna in
  idna_ok idna -> rsa_pair n e d -> rsa_accepted n e -> 2 ^ 1016 <= n ->
  rsa_private_info_der n e d bs -> pem_text (lit "PRIVATE KEY") bs pem -> files key_file = Some (as_bytes pem) ->
  domain_text idna dom true -> domain_text idna sel false -> Forall is_scalar dom -> Forall is_scalar sel ->
  message_input stdin headers body -> (exists f, In f headers /\ same_name (fst f) (lit "From")) ->
  (forall l, Permutation (order l) l) -> clock 0%nat < 2^64 ->
  rsa_published E zone dom sel n e -> sole_record E zone dom sel ->
  exists o out, dkimsign E real_pem files order clock [program; key_file; dom; sel] stdin = Val (mkExit 0 out []) /\ printed o out
    /\ signed_output E headers [body] clock 0 (request_for E dom sel (SkRsa (C := real_crypto) (mkRsaSecret (mkRsaKey n e) d []))) o
    /\ let value := as_bytes (so_header_value o) in
       forall T w program' stdin' headers' body' k i name', world_ok w -> steady (w_resolver w) zone ->
       message_input stdin' headers' body' -> nth_error (examined program_config headers') k = Some (i, (name', value)) ->
       exists t rs r' sig data data' err,
         dkimverify E (show_result T) w [program'] stdin' = Val (mkExit 0 t []) /\ listing (show_result T) 1 rs t /\ nth_error rs k = Some r'
         /\ SpecUnique.signed_text E (signature_field o :: headers) (so_header_name o) value sig data /\ SpecUnique.signed_text E headers' name' value sig data'
         /\ first_of (program_checks headers headers' (default_intact headers headers' \/ collision E Sha256 data data') (body_same E body body')) err
         /\ vr_status r' = status_of err /\ nth_error (lines_with (lit "    status: ") t) k = Some (status_line err).
Proof. exact rsa_programs_any. Qed.
Print Assumptions C97_rsa.

(** With an Ed25519 key. *)
Theorem C97_ed25519 : forall pre m idna order clock files zone program key_file dom sel stdin headers body pem bs key public,
  let E := real_env pre m idna in
  idna_ok idna -> length key = 32%nat -> Forall is_byte key -> ed_public_key sha512 key public ->
  ed_private_info_der key bs -> pem_text (lit "PRIVATE KEY") bs pem -> files key_file = Some (as_bytes pem) ->
  domain_text idna dom true -> domain_text idna sel false -> Forall is_scalar dom -> Forall is_scalar sel ->
  message_input stdin headers body -> (exists f, In f headers /\ same_name (fst f) (lit "From")) ->
  (forall l, Permutation (order l) l) -> clock 0%nat < 2^64 ->
  ed_published E zone dom sel public -> sole_record E zone dom sel ->
  exists o out, dkimsign E real_pem files order clock [program; key_file; dom; sel] stdin = Val (mkExit 0 out []) /\ printed o out
    /\ signed_output E headers [body] clock 0 (request_for E dom sel (SkEd25519 (C := real_crypto) key)) o
    /\ let value := as_bytes (so_header_value o) in
       forall T w program' stdin' headers' body' k i name', world_ok w -> steady (w_resolver w) zone ->
       message_input stdin' headers' body' -> nth_error (examined program_config headers') k = Some (i, (name', value)) ->
       exists t rs r' sig data data' err,
         dkimverify E (show_result T) w [program'] stdin' = Val (mkExit 0 t []) /\ listing (show_result T) 1 rs t /\ nth_error rs k = Some r'
         /\ SpecUnique.signed_text E (signature_field o :: headers) (so_header_name o) value sig data /\ SpecUnique.signed_text E headers' name' value sig data'
         /\ first_of (program_checks headers headers'
                        (default_intact headers headers' \/ ed_clash sha512 (hash_fn real_crypto Sha256) public (s_signature_data sig) data data')
                        (body_same E body body')) err
         /\ vr_status r' = status_of err /\ nth_error (lines_with (lit "    status: ") t) k = Some (status_line err).
Proof. exact ed_programs_any. Qed.
Print Assumptions C97_ed25519.

(** ** Example *)

(** the sample message on its way: a field added, others moved and spelled differently, an
    empty line added at the end *)
Definition on_its_way : list byte :=
  lit "X-Added: 1" ++ [10] ++ lit "SUBJECT:  =|; " ++ [10] ++ lit "To: a, b" ++ [10] ++ lit "from:" ++ [10; 9] ++ lit "me@example.com"
  ++ [10; 10] ++ lit "Hi" ++ [10; 10] ++ lit "you" ++ [10; 10].
(** another author claimed *)
Definition claimed : list byte := lit "From: you" ++ [10] ++ on_its_way.
(** another text *)
Definition other_text : list byte := lit "From: me@example.com" ++ [10] ++ lit "To: a, b" ++ [10] ++ lit "Subject: =|;" ++ [10; 10] ++ lit "Ho" ++ [10].

Definition says (record : str) (message : list byte) (line : str) : Prop :=
  forall T w, world_ok w -> steady (w_resolver w) (sample_zone [record]) ->
  exists t, dkimverify rsa_env (show_result T) w [lit "verify"] message = Val (mkExit 0 t []) /\ nth_error (lines_with (lit "    status: ") t) 0 = Some line.

Definition all_said (record : str) (out : str) : Prop :=
  says record (as_bytes out ++ on_its_way) (lit "    status: Success,")
  /\ says record (as_bytes out ++ claimed) (lit "    status: Failure(")
  /\ says record (as_bytes out ++ other_text) (lit "    status: Failure(").

Lemma said : forall record key o out clock (clash : DkimSig -> list byte -> list byte -> Prop), let value := as_bytes (so_header_value o) in
  clock 0%nat < 2^64 -> printed o out ->
  signed_output rsa_env sample_fields [as_bytes sample_content] clock 0 (request_for rsa_env (lit "Example.com") (lit "a-very.long-selector.name") key) o ->
  (forall T w program' stdin' headers' body' k i name', world_ok w -> steady (w_resolver w) (sample_zone [record]) ->
     message_input stdin' headers' body' -> nth_error (examined program_config headers') k = Some (i, (name', value)) ->
     exists t (sig : DkimSig) data data' err, dkimverify rsa_env (show_result T) w [program'] stdin' = Val (mkExit 0 t [])
       /\ first_of (program_checks sample_fields headers' (default_intact sample_fields headers' \/ clash sig data data') (body_same rsa_env (as_bytes sample_content) body')) err
       /\ nth_error (lines_with (lit "    status: ") t) k = Some (status_line err)) ->
  all_said record out.
Proof.
  intros record key o out clock clash value Ck Pr So Th.
  pose proof (program_readable rsa_env _ _ key sample_fields [as_bytes sample_content] clock o (sample_scalar _) (sample_scalar _) Ck So) as RO.
  destruct (readable_field rsa_env o ascii_idna_ok (program_scalar rsa_env _ _ key _ _ _ _ (sample_scalar _) (sample_scalar _) So)) as (F1 & F2 & F3).
  destruct (field_named rsa_env _ _ _ _ _ _ ascii_idna_ok RO) as [Fn _].
  assert (forall message hs b err, read_message message = Some (hs, b) ->
    (forall sig data data', first_of (program_checks sample_fields (signature_field o :: hs)
       (default_intact sample_fields (signature_field o :: hs) \/ clash sig data data') (body_same rsa_env (as_bytes sample_content) (as_bytes b))) err) ->
    says record (as_bytes out ++ message) (status_line err)) as Go.
  { intros message hs b err M Fo T w W Z. apply input_read in M. pose proof (printed_top o out _ _ _ F1 F2 F3 Pr M) as M'.
    destruct (Th T w (lit "verify") _ _ _ 0%nat 0%nat (so_header_name o) W Z M') as (t & sig & data & data' & err' & V & Fo' & L).
    { unfold examined. change (cf_max_signatures program_config) with 10%nat. cbn [signature_fields signature_field fst].
      apply same_nameb_iff in Fn. rewrite Fn. reflexivity. }
    exists t. split; [exact V|]. rewrite L, (first_of_det _ _ _ _ Fo' (Fo sig data data')). reflexivity. }
  assert (forall hs, Forall (fun ln => Forall2 (same_field Relaxed) (filter (fun f => leqb (lower (fst f)) ln) (rev sample_fields))
    (firstn (length (filter (fun f => leqb (lower (fst f)) ln) sample_fields)) (filter (fun f => leqb (lower (fst f)) ln) (rev hs)))) signed_by_default ->
    default_intact sample_fields (signature_field o :: hs)) as In1.
  { intros hs H n Hn. rewrite Forall_forall in H. specialize (H (lower n) Hn). unfold lowest, named in *. cbn [rev]. rewrite filter_app. cbn [filter].
    destruct (same_nameb (fst (signature_field o)) n) eqn:X; [|rewrite app_nil_r; exact H].
    exfalso. apply same_nameb_iff in X. apply (not_default n); [|exact Hn]. cbn [signature_field fst] in X. unfold same_name in *. congruence. }
  assert (forall n hs, In (lower n) signed_by_default -> named n (signature_field o :: hs) = named n hs) as Nm.
  { intros n hs Hn. unfold named. cbn [filter]. destruct (same_nameb (fst (signature_field o)) n) eqn:X; [|reflexivity].
    exfalso. apply same_nameb_iff in X. apply (not_default n); [|exact Hn]. cbn [signature_field fst] in X. unfold same_name in *. congruence. }
  assert (In (lower (lit "From")) signed_by_default) as Fr by (left; reflexivity).
  split; [|split].
  - eapply (Go on_its_way _ _ None); [vm_compute; reflexivity|]. intros sig data data'. apply first_of_none_iff.
    repeat constructor; cbn [fst].
    + rewrite (Nm _ _ Fr). vm_compute. lia.
    + intros Nq. apply Nq. left. apply In1. repeat constructor.
    + intros Nq. apply Nq. left. 
      match goal with |- same_body Simple ?a ?b => change b with (a ++ [13; 10]) end. apply sb_crlf; intros; discriminate.
  - eapply (Go claimed _ _ (Some _)); [vm_compute; reflexivity|]. intros sig data data'. apply first_of_cons_some. left. split; [|reflexivity].
    rewrite (Nm _ _ Fr). vm_compute. lia.
  - eapply (Go other_text _ _ (Some _)); [vm_compute; reflexivity|]. intros sig data data'. apply first_of_cons_some. right. split.
    + rewrite (Nm _ _ Fr). vm_compute. lia.
    + apply first_of_cons_some. right. split; [intros Nq; apply Nq; left; apply In1; repeat constructor|]. apply first_of_cons_some. left. split; [|reflexivity].
      intros [H|[_ H]].
      * apply same_body_canonical in H. vm_compute in H. discriminate H.
      * unfold rsa_env in H. rewrite !real_hash in H. vm_compute in H. discriminate H.
Qed.

Definition late (n : nat) : N := 5000.

Example C97_example : exists out,
  dkimsign rsa_env real_pem rsa_file (@rev _) late [lit "sign"; lit "key"; lit "Example.com"; lit "a-very.long-selector.name"] sample_message = Val (mkExit 0 out [])
  /\ all_said sample_key_record out.
Proof.
  destruct sample_names as (Dd & Ds).
  destruct (C97_rsa false (2^64 - 1) ascii_idna (@rev _) late rsa_file (sample_zone [sample_key_record]) (lit "sign") (lit "key") (lit "Example.com") (lit "a-very.long-selector.name")
    sample_message sample_fields (as_bytes sample_content) sample_pem_text sample_private_info sample_n sample_e sample_d) as (o & out & Run & Pr & So & Th).
  - exact ascii_idna_ok.
  - exact sample_pair.
  - exact sample_accepted.
  - exact sample_long.
  - exact sample_private_der.
  - exact sample_pem_written.
  - reflexivity.
  - exact Dd.
  - exact Ds.
  - apply sample_scalar.
  - apply sample_scalar.
  - apply input_read. vm_compute. reflexivity.
  - exists (lit "From", lit " me@example.com"). split; [right; left; reflexivity|reflexivity].
  - intros l. symmetry. apply Permutation_rev.
  - reflexivity.
  - exact sample_rsa_published.
  - intros dn sn D S. vm_compute in D, S. injection D as <-. injection S as <-. eexists. reflexivity.
  - exists out. split; [exact Run|]. apply (said sample_key_record _ o out late (fun _ => collision rsa_env Sha256) ltac:(reflexivity) Pr So).
    intros T w program' stdin' headers' body' k i name' W Z M K.
    destruct (Th T w program' stdin' headers' body' k i name' W Z M K) as (t & rs & r' & sig & data & data' & err & V & _ & _ & _ & _ & F & _ & L).
    exists t, sig, data, data', err. split; [exact V|]. split; [exact F|exact L].
Qed.

Example C97_ed_example : exists out,
  dkimsign ed_env real_pem ed_file (@rev _) late [lit "sign"; lit "key"; lit "Example.com"; lit "a-very.long-selector.name"] sample_message = Val (mkExit 0 out [])
  /\ all_said ed_sample_record out.
Proof.
  destruct sample_names as (Dd & Ds).
  destruct (C97_ed25519 false (2^64 - 1) ascii_idna (@rev _) late ed_file (sample_zone [ed_sample_record]) (lit "sign") (lit "key") (lit "Example.com") (lit "a-very.long-selector.name")
    sample_message sample_fields (as_bytes sample_content) ed_sample_pem ed_sample_private_info ed_sample_key ed_sample_public) as (o & out & Run & Pr & So & Th).
  - exact ascii_idna_ok.
  - apply ed_sample_size.
  - apply ed_sample_size.
  - exact ed_sample_public_key.
  - exact ed_sample_private_der.
  - exact ed_sample_pem_written.
  - reflexivity.
  - exact Dd.
  - exact Ds.
  - apply sample_scalar.
  - apply sample_scalar.
  - apply input_read. vm_compute. reflexivity.
  - exists (lit "From", lit " me@example.com"). split; [right; left; reflexivity|reflexivity].
  - intros l. symmetry. apply Permutation_rev.
  - reflexivity.
  - destruct ed_sample_read as (k & K & K1 & K2 & K3). apply (ed_record_published _ k); [apply sample_scalar|exact K|exact K1|exact K2|left; exact K3].
  - intros dn sn D S. vm_compute in D, S. injection D as <-. injection S as <-. eexists. reflexivity.
  - exists out. split; [exact Run|].
    apply (said ed_sample_record _ o out late (fun sig => ed_clash sha512 (hash_fn real_crypto Sha256) ed_sample_public (s_signature_data sig)) ltac:(reflexivity) Pr So).
    intros T w program' stdin' headers' body' k i name' W Z M K.
    destruct (Th T w program' stdin' headers' body' k i name' W Z M K) as (t & rs & r' & sig & data & data' & err & V & _ & _ & _ & _ & F & _ & L).
    exists t, sig, data, data', err. split; [exact V|]. split; [exact F|exact L].
Qed.
