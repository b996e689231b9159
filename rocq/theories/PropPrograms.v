(** Properties C66, C67: the example programs. *)

From Coq Require Import String List Permutation.
From Verif Require Import Base Utf8 Canon BodyHash Header Domain Signature KeyRecord Crypto Format Sign Verify Pem Programs
  SpecText SpecCanon SpecHash SpecHeader SpecTag SpecDomain SpecSig SpecRecord SpecFormat SpecSign SpecOutput SpecVerify SpecEnd SpecPrograms
  ProgramsProofs Lib Sample PropDomain PropSign PropOutput PropVerify PropEnd PropPem.
Import ListNotations.
Open Scope N_scope.

(** ** C66 *)

(** The signing program prints one header field with the library's signature for the
    message, or reports that the key cannot be used; without a message, key or name
    it panics. *)
Theorem C66_sign : forall E P files order clock program key_file domain selector stdin,
  crypto_typed E -> idna_ok (env_idna E) -> (forall l, Permutation (order l) l) ->
  Forall is_scalar domain -> Forall is_scalar selector ->
  let run := dkimsign E P files order clock [program; key_file; domain; selector] stdin in
  (forall key headers body, can_sign E P files key_file domain selector stdin key headers body ->
     let r := request_for E domain selector key in
     (exists o out, run = Val (mkExit 0 out []) /\ signed_output E headers [body] clock 0 r o /\ printed o out)
     \/ (run = Val (mkExit 0 [] (lit "failed to sign: signing failed" ++ [10]))
         /\ signing_result E (clock 0%nat) r headers body (Err SigningFailure)))
  /\ ((forall key headers body, ~ can_sign E P files key_file domain selector stdin key headers body) -> run = Panic).
Proof. exact dkimsign_spec. Qed.
Print Assumptions C66_sign.

(** The verification program lists the library's results; without a message, or a
    signature in it, it panics. *)
Theorem C66_verify : forall E show w program stdin, world_ok w ->
  (forall headers body, message_input stdin headers body ->
     forall x, dkimverify E show w [program] stdin = Val x <->
       exists rs t, verify_message E w headers program_config [body] = Val (Some rs) /\ listing show 1 rs t /\ x = mkExit 0 t [])
  /\ (forall headers body, message_input stdin headers body ->
       (dkimverify E show w [program] stdin = Panic <-> examined program_config headers = []))
  /\ ((forall headers body, ~ message_input stdin headers body) -> dkimverify E show w [program] stdin = Panic).
Proof. exact dkimverify_spec. Qed.
Print Assumptions C66_verify.

(** There is at most one way to read the input. *)
Theorem C66_one_message : forall stdin headers body headers' body',
  message_input stdin headers body -> message_input stdin headers' body' -> headers = headers' /\ body = body'.
Proof. exact message_input_det. Qed.
Print Assumptions C66_one_message.

(** The programs only take messages with LF line breaks. *)
Theorem C66_crlf : forall E P files order clock show w program key_file domain selector stdin,
  (forall a b, stdin <> a ++ [10; 10] ++ b) ->
  dkimsign E P files order clock [program; key_file; domain; selector] stdin = Panic
  /\ dkimverify E show w [program] stdin = Panic.
Proof. exact no_blank. Qed.
Print Assumptions C66_crlf.

(** With a wrong number of arguments nothing is read or printed, except for how to use
    the programs. *)
Theorem C66_usage : forall E P files order clock show w program args stdin,
  (length args <> 3%nat -> dkimsign E P files order clock (program :: args) stdin
     = Val (mkExit 1 [] (lit "usage: " ++ program ++ lit " <key_file> <domain> <selector>" ++ [10])))
  /\ (args <> [] -> dkimverify E show w (program :: args) stdin = Val (mkExit 1 [] (lit "usage: " ++ program ++ [10]))).
Proof.
  intros E P files order clock show w program args stdin. split.
  - intros H. destruct args as [|a [|b [|c [|d l]]]]; try reflexivity. destruct (H eq_refl).
  - intros H. destruct args; [congruence|reflexivity].
Qed.
Print Assumptions C66_usage.

(** Started without even a name, the one prints usage with its own; the other runs. *)
Theorem C66_no_name : forall E P files order clock show w stdin,
  dkimsign E P files order clock [] stdin = dkimsign E P files order clock [lit "dkimsign"] stdin
  /\ forall program, dkimverify E show w [] stdin = dkimverify E show w [program] stdin.
Proof. intros. split; reflexivity. Qed.
Print Assumptions C66_no_name.

Definition sample_message : list byte :=
  lit "Received: by x" ++ [10] ++ lit "From: me@example.com" ++ [10] ++ lit "To: a," ++ [10; 32] ++ lit "b" ++ [10] ++ lit "Subject: =|;"
  ++ [10; 10] ++ lit "Hi" ++ [10; 10] ++ lit "you" ++ [10].
Definition sample_file (name : str) : option (list byte) := if leqb name (lit "key") then Some (lit "P:R" ++ [7]) else None.
Definition program_output (m : list byte) : str :=
  match dkimsign ascii_env sample_pem sample_file (fun l => l) (fun _ => 5000)
    [lit "sign"; lit "key"; lit "Example.com"; lit "a-very.long-selector.name"] m with
  | Val x => ex_out x
  | Panic => []
  end.
Definition sample_show (r : VerificationResult) : str := match vr_status r with Success => lit "ok" | Failure _ => lit "bad" end.

Definition sample_fields : list HeaderField :=
  [(lit "Received", lit " by x"); (lit "From", lit " me@example.com"); (lit "To", lit " a," ++ [13; 10; 32] ++ lit "b"); (lit "Subject", lit " =|;")].
Definition sample_content : list byte := lit "Hi" ++ [13; 10; 13; 10] ++ lit "you" ++ [13; 10].

Lemma input_read : forall m h b, read_message m = Some (h, b) -> message_input m h (as_bytes b).
Proof. intros m h b H. apply read_message_spec. eauto. Qed.

Lemma sample_scalar : forall s, Forall is_scalar (lit s).
Proof. induction s as [|a s IH]; constructor; [|exact IH]. pose proof (Ascii.N_ascii_bounded a). unfold is_scalar. lia. Qed.

Lemma sample_can_sign : forall m h b, read_message m = Some (h, b) -> (exists f, In f h /\ same_name (fst f) (lit "From")) ->
  can_sign ascii_env sample_pem sample_file (lit "key") (lit "Example.com") (lit "a-very.long-selector.name") m
    (SkRsa (C := sized_crypto) 7) h (as_bytes b).
Proof.
  intros m h b M F. split.
  { exists (lit "P:R" ++ [7]). split; [reflexivity|]. split; [|reflexivity]. apply Forall_app. split; [apply sample_scalar|].
    constructor; [unfold is_scalar; lia|constructor]. }
  split.
  { destruct (DomainProofs.domain_new_spec ascii_idna (lit "Example.com")) as (rd & X & Y). vm_compute in X. injection X as <-. exact (proj2 (proj1 (Y _) eq_refl)). }
  split.
  { destruct (DomainProofs.selector_new_spec ascii_idna (lit "a-very.long-selector.name")) as (rd & X & Y). vm_compute in X. injection X as <-. exact (proj2 (proj1 (Y _) eq_refl)). }
  split; [apply input_read; exact M|exact F].
Qed.

Example C66_example :
  message_input sample_message sample_fields sample_content
  /\ can_sign ascii_env sample_pem sample_file (lit "key") (lit "Example.com") (lit "a-very.long-selector.name") sample_message
       (SkRsa (C := sized_crypto) 7) sample_fields sample_content
  /\ firstn 26 (program_output sample_message) = lit "DKIM-Signature: v=1; d=Exa"
  /\ dkimverify ascii_env sample_show (sample_world 20 good_records) [lit "verify"] sample_message = Panic
  /\ dkimverify ascii_env sample_show (sample_world 20 good_records) [lit "verify"] (as_bytes (program_output sample_message) ++ sample_message)
     = Val (mkExit 0 ([10] ++ lit "SIGNATURE 1" ++ [10] ++ lit "ok" ++ [10]) []).
Proof.
  split; [apply (input_read _ _ sample_content); vm_compute; reflexivity|].
  split; [apply (sample_can_sign _ _ sample_content); [vm_compute; reflexivity|exists (lit "From", lit " me@example.com"); split; [right; left; reflexivity|reflexivity]]|].
  split; [vm_compute; reflexivity|]. split; vm_compute; reflexivity.
Qed.

(** ** C67 *)

(** Up to ten times, the output of the signing program is put on top of the message.
    Then the verification program lists that many successes first, whatever the times
    of signing and verification, if the keys are published. *)
Theorem C67_together : forall E, crypto_typed E -> idna_ok (env_idna E) ->
  forall zone show w program m n m', crypto_nonempty (env_crypto E) -> world_ok w -> steady (w_resolver w) zone ->
  signed_times E zone m n m' -> (0 < n <= 10)%nat ->
  exists rs rest t, dkimverify E show w [program] m' = Val (mkExit 0 t []) /\ listing show 1 (rs ++ rest) t
    /\ length rs = n /\ Forall (fun r => vr_status r = Success) rs.
Proof. exact programs_together. Qed.
Print Assumptions C67_together.

Definition twice : list byte :=
  let m1 := as_bytes (program_output sample_message) ++ sample_message in as_bytes (program_output m1) ++ m1.

Lemma sample_time : forall n m' h b, signed_times ascii_env (sample_zone good_records) sample_message n m' ->
  dkimsign ascii_env sample_pem sample_file (fun l => l) (fun _ => 5000)
    [lit "sign"; lit "key"; lit "Example.com"; lit "a-very.long-selector.name"] m' = Val (mkExit 0 (program_output m') []) ->
  program_output m' <> [] ->
  read_message m' = Some (h, b) -> (exists f, In f h /\ same_name (fst f) (lit "From")) ->
  signed_times ascii_env (sample_zone good_records) sample_message (S n) (as_bytes (program_output m') ++ m').
Proof.
  intros n m' h b H X Ne M F. eapply st_more; [exact H| | | | |exact X|exact Ne|apply sample_can_sign; [exact M|exact F]|].
  - reflexivity.
  - reflexivity.
  - apply sample_scalar.
  - apply sample_scalar.
  - apply (sample_published (request_for ascii_env (lit "Example.com") (lit "a-very.long-selector.name") (SkRsa (C := sized_crypto) 7))); reflexivity.
Qed.

Example C67_example :
  signed_times ascii_env (sample_zone good_records) sample_message 2 twice
  /\ dkimverify ascii_env sample_show (sample_world 20 good_records) [lit "verify"] twice
     = Val (mkExit 0 ([10] ++ lit "SIGNATURE 1" ++ [10] ++ lit "ok" ++ [10; 10] ++ lit "SIGNATURE 2" ++ [10] ++ lit "ok" ++ [10]) []).
Proof.
  split; [|vm_compute; reflexivity]. unfold twice. cbv zeta.
  destruct (read_message (as_bytes (program_output sample_message) ++ sample_message)) as [[h b]|] eqn:M; [|vm_compute in M; discriminate M].
  eapply (sample_time 1 _ h b); [eapply (sample_time 0 _ sample_fields sample_content)| | | |].
  - apply st_none.
  - vm_compute. reflexivity.
  - vm_compute. discriminate.
  - vm_compute. reflexivity.
  - exists (lit "From", lit " me@example.com"). split; [right; left; reflexivity|reflexivity].
  - vm_compute. reflexivity.
  - vm_compute. discriminate.
  - exact M.
  - vm_compute in M. injection M as <- _. eexists. split; [right; right; left; reflexivity|vm_compute; reflexivity].
Qed.
