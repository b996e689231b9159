(** Proofs: what the verification program says of a message from the signing program. *)

From Coq Require Import String List Lia NArith Permutation.
From Verif Require Import Base Utf8 Canon BodyHash Header Domain Signature KeyRecord Crypto TagList Format Sign Verify Pem Programs Debug
  SpecText SpecCanon SpecHash SpecHeader SpecTag SpecDomain SpecSig SpecRecord SpecFormat SpecSign SpecOutput SpecVerify SpecEnd SpecDkim SpecCause SpecRsa SpecEd SpecReal SpecUnique
  SpecTransit SpecAuthor SpecChange SpecReceived SpecReceivedAny SpecPem SpecPrograms SpecDebug SpecProgramsAny
  Concrete HeaderCanonProofs SigProofs SignProofs VerifyProofs VerifyKeys VerifyRun VerifyFacts WidthProofs OutputProofs OutputParse OutputChars EndProofs DkimProofs RsaProofs EdSpecProofs EdEndProofs ConcreteProofs RealProofs
  UniqueEnd AuthorProofs ChangeProofs ReceivedProofs ReceivedAny ProgramsProofs DebugTrees Lib.
Import ListNotations.
Open Scope N_scope.

Lemma first_skip : forall (P : Prop) (x : VerificationError) l e, ~ P -> first_of ((P, x) :: l) e -> first_of l e.
Proof.
  intros P x l [e|] N H; [apply first_of_cons_some in H as [(Y & _)|(_ & H)]; [contradiction|exact H]|].
  apply first_of_cons_none in H as (_ & H). exact H.
Qed.

Lemma first_same : forall (P Q : Prop) (x : VerificationError) l l' e, (P <-> Q) -> (first_of l e -> first_of l' e) ->
  first_of ((P, x) :: l) e -> first_of ((Q, x) :: l') e.
Proof.
  intros P Q x l l' [e|] I T H.
  - apply first_of_cons_some in H as [(Y & Z)|(Y & Z)]; apply first_of_cons_some; [left|right]; (split; [tauto|auto]).
  - apply first_of_cons_none in H as (Y & Z). apply first_none; [tauto|auto].
Qed.

Section WithEnv.
Variable E : Env.
Notation C := (env_crypto E).
Notation idna := (env_idna E).

Section Signed.
Variables (dom sel : str) (key : SigningKey C) (headers : list HeaderField) (body : list byte) (clock : nat -> N) (o : SigningOutput).
Notation r := (request_for E dom sel key).
Hypothesis HO : signed_output E headers [body] clock 0 r o.

Lemma program_parts : exists fs,
  selected (fun f : HeaderField => In (lower (fst f)) signed_by_default) headers fs /\ s_signed_headers (so_signature o) = rev (map fst fs)
  /\ s_body_length (so_signature o) = None /\ s_canonicalization (so_signature o) = mkCanon Relaxed Simple
  /\ s_algorithm (so_signature o) = algorithm_for E key.
Proof.
  destruct (request_parts _ _ _ _ _ _ _ HO) as (hashed & names & B & Nm & Qn & Qa & _ & Qc & _).
  inversion Nm as [fs _ Sel E1|]; [subst|discriminate]. exists fs. split; [exact Sel|]. split; [congruence|].
  split; [|split; [exact Qc|exact Qa]]. remember (s_body_length (so_signature o)) as l. inversion B; try reflexivity; discriminate.
Qed.

Lemma program_not_oversigned : idna_ok idna -> readable_output E headers [body] clock 0 r o ->
  not_oversigned (s_signed_headers (so_signature o)) headers [signature_field o].
Proof.
  intros Io RO n f Hn [<-|[]] Sn. exfalso. destruct program_parts as (fs & Sel & Nm & _).
  destruct (field_named E _ _ _ _ _ _ Io RO) as [Fn _]. apply (not_default n).
  - cbn [signature_field fst] in Sn. unfold same_name in *. congruence.
  - rewrite Nm in Hn. apply In_rev, in_map_iff in Hn as (g & <- & Hg). clear - Sel Hg. induction Sel; [destruct Hg| |auto]. destruct Hg as [<-|Hg]; auto.
Qed.

Lemma program_checked : forall now sig headers' name' text body' err, idna_ok idna -> readable_output E headers [body] clock 0 r o ->
  written_signature idna (r_format E r) (so_signature o) sig -> same_name (so_header_name o) name' ->
  first_of (all_checks E program_config now sig headers'
    (fields_kept sig (so_header_name o) name' (signature_field o :: headers) headers' \/ text) body body') err ->
  first_of (program_checks headers headers' (default_intact headers headers' \/ text) (body_same E body body')) err.
Proof.
  intros now sig headers' name' text body' err Io RO W Sn H. destruct program_parts as (fs & Sel & Nm & Bl & Cn & Al).
  destruct W as (W1 & _ & _ & W4 & _ & W6 & _ & W8 & _). rewrite Al in W1. rewrite Cn in W4. rewrite Nm in W6. rewrite Bl in W8.
  destruct (field_named E _ _ _ _ _ _ Io RO) as [Fn _].
  assert (alg_hash (s_algorithm sig) = Sha256) as Ah by (rewrite W1; destruct key; reflexivity).
  unfold all_checks, signature_checks, body_checks in H. rewrite W8, W4, Ah in H. cbn [app c_body] in H. unfold program_checks.
  apply first_skip in H; [|intros (n & [] & _)]. revert H. apply first_same.
  { unfold unsigned_occurrence. rewrite W6, <- (named_length (lit "From") headers'), <- (named_length (lit "From") headers).
    assert (In (lower (lit "From")) signed_by_default) as I by (left; reflexivity). rewrite <- (auto_names (lit "From") headers fs I Sel). split.
    - intros (n & [<-|[]] & L). exact L.
    - intros L. exists (lit "From"). split; [left; reflexivity|exact L]. }
  intros H. apply first_skip in H; [|intros (l & Y & _); congruence]. apply first_skip in H; [|intros (Y & _); discriminate Y].
  apply first_skip in H; [|intros (Y & _); discriminate Y]. apply first_skip in H; [|intros (_ & Y); congruence].
  revert H. apply first_same.
  { pose proof (kept_default sig fs (so_header_name o) name' (signature_field o) headers headers' Sel W6) as Kd. rewrite W4 in Kd. specialize (Kd eq_refl Sn Fn). tauto. }
  intros H. exact H.
Qed.
End Signed.

(** the result for a field of the message, in the output of the verification program *)
Lemma program_result : forall T w zone program stdin headers body k i name value, world_ok w -> steady (w_resolver w) zone ->
  message_input stdin headers body -> nth_error (examined program_config headers) k = Some (i, (name, value)) ->
  exists t rs r, dkimverify E (show_result T) w [program] stdin = Val (mkExit 0 t []) /\ listing (show_result T) 1 rs t
    /\ nth_error rs k = Some r /\ result_of E program_config zone (w_clock w i) headers body name value r
    /\ nth_error (lines_with (lit "    status: ") t) k = Some (verdict_line r).
Proof.
  intros T w zone program stdin headers body k i name value W Z M K.
  destruct (verify_message_cases E w headers program_config [body] W (input_fields _ _ _ M)) as [[X _]|(_ & rs & V & L)]; [rewrite X in K; destruct k; discriminate K|].
  assert (exists r, nth_error rs k = Some r) as (r & K').
  { destruct (nth_error rs k) as [r|] eqn:Y; [eauto|]. apply nth_error_None in Y. apply (f_equal (@length _)) in L. rewrite !map_length in L.
    rewrite L in Y. apply nth_error_None in Y. rewrite Y in K. discriminate K. }
  pose proof (proj1 (print_listing (show_result T) rs 0%nat _) eq_refl) as Li. change (N.of_nat (0 + 1)) with 1 in Li.
  exists (print_results (show_result T) 0 rs), rs, r. split.
  { apply (proj1 (dkimverify_spec E (show_result T) w program stdin W) headers body M). eexists _, _. split; [exact V|]. split; [exact Li|reflexivity]. }
  split; [exact Li|]. split; [exact K'|]. split.
  - exists w, [body], rs, i. repeat (split; [assumption|]). split; [exact (input_fields _ _ _ M)|]. split; [cbn; rewrite app_nil_r; reflexivity|]. split; [exact V|]. split; [exists k; auto|reflexivity].
  - destruct (report_lines T 1 rs _ Li) as (-> & _). apply map_nth_error. exact K'.
Qed.
End WithEnv.

Lemma status_lines : forall r e, vr_status r = status_of e -> verdict_line r = status_line e.
Proof. intros r [e|] H; unfold verdict_line; rewrite H; reflexivity. Qed.

(** ** With the real cryptography *)

Section Real.
Variables (pre : bool) (m : N) (idna : Idna).
Notation E := (real_env pre m idna).

Lemma rsa_program_signs : forall order clock files program key_file dom sel stdin headers body pem bs n e d,
  idna_ok idna -> rsa_pair n e d -> rsa_accepted n e -> 2 ^ 1016 <= n ->
  rsa_private_info_der n e d bs -> pem_text (lit "PRIVATE KEY") bs pem -> files key_file = Some (as_bytes pem) ->
  domain_text idna dom true -> domain_text idna sel false -> Forall is_scalar dom -> Forall is_scalar sel ->
  message_input stdin headers body -> (exists f, In f headers /\ same_name (fst f) (lit "From")) ->
  (forall l, Permutation (order l) l) ->
  exists o out, dkimsign E real_pem files order clock [program; key_file; dom; sel] stdin = Val (mkExit 0 out []) /\ printed o out
    /\ signed_output E headers [body] clock 0 (request_for E dom sel (SkRsa (C := real_crypto) (mkRsaSecret (mkRsaKey n e) d []))) o.
Proof.
  intros order clock files program key_file dom sel stdin headers body pem bs n e d Io P Acc L Inf Pem Fl Hd Hs Sd Ss M From O.
  set (key := SkRsa (C := real_crypto) (mkRsaSecret (mkRsaKey n e) d [])).
  pose proof (private_info_bytes _ _ _ _ Inf) as Bs.
  assert (can_sign E real_pem files key_file dom sel stdin key headers body) as Can.
  { split; [|auto]. exists pem. split; [exact Fl|]. split; [eapply pem_scalar; eassumption|].
    eapply pem_key; eassumption. }
  destruct (dkimsign_spec E real_pem files order clock program key_file dom sel stdin (real_typed pre m idna) Io O Sd Ss) as (D & _).
  destruct (D key headers body Can) as [(o & out & Run & So & Pr)|(_ & Bad)]; [exists o, out; auto|].
  exfalso. inversion Bad; subst. match goal with H : primitive_sign _ _ _ _ = None |- _ => rename H into PS end.
  match goal with H : to_sign _ _ _ _ _ _ |- _ => destruct H as (? & ? & ? & ? & _ & _ & _ & ->) end.
  destruct P as (ps & _ & _ & Pos & _).
  edestruct (rsa_signs pre m idna (mkRsaSecret (mkRsaKey n e) d [])) as (sig & X); [exact Pos|pose proof (long_bytes n e L); cbn [rs_public]; lia|].
  unfold key in PS. cbn [request_for r_signing_key primitive_sign] in PS. unfold header_digest in PS.
  cbn [u_algorithm request_for r_algorithm algorithm_for alg_hash env_crypto real_env] in PS.
  change (rsa_sign real_crypto) with rsa_sign_digest in PS. rewrite X in PS. discriminate PS.
Qed.

Theorem rsa_programs_any : forall order clock files zone program key_file dom sel stdin headers body pem bs n e d,
  idna_ok idna -> rsa_pair n e d -> rsa_accepted n e -> 2 ^ 1016 <= n ->
  rsa_private_info_der n e d bs -> pem_text (lit "PRIVATE KEY") bs pem -> files key_file = Some (as_bytes pem) ->
  domain_text idna dom true -> domain_text idna sel false -> Forall is_scalar dom -> Forall is_scalar sel ->
  message_input stdin headers body -> (exists f, In f headers /\ same_name (fst f) (lit "From")) ->
  (forall l, Permutation (order l) l) -> clock 0%nat < 2^64 ->
  rsa_published E zone dom sel n e -> sole_record E zone dom sel ->
  exists o out, dkimsign E real_pem files order clock [program; key_file; dom; sel] stdin = Val (mkExit 0 out []) /\ printed o out
    /\ signed_output E headers [body] clock 0 (request_for E dom sel (SkRsa (C := real_crypto) (mkRsaSecret (mkRsaKey n e) d []))) o
    /\ let value := as_bytes (so_header_value o) in
       forall T w program' stdin' headers' body' k i name', world_ok w -> steady (w_resolver w) zone ->
       message_input stdin' headers' body' -> nth_error (examined program_config headers') k = Some (i, (name', value)) ->
       exists t rs r' sig data data' err,
         dkimverify E (show_result T) w [program'] stdin' = Val (mkExit 0 t []) /\ listing (show_result T) 1 rs t /\ nth_error rs k = Some r'
         /\ signed_text E (signature_field o :: headers) (so_header_name o) value sig data /\ signed_text E headers' name' value sig data'
         /\ first_of (program_checks headers headers' (default_intact headers headers' \/ collision E Sha256 data data') (body_same E body body')) err
         /\ vr_status r' = status_of err /\ nth_error (lines_with (lit "    status: ") t) k = Some (status_line err).
Proof.
  intros order clock files zone program key_file dom sel stdin headers body pem bs n e d Io P Acc L Inf Pem Fl Hd Hs Sd Ss M From O Ck Pub One.
  destruct (rsa_program_signs order clock files program key_file dom sel stdin headers body pem bs n e d) as (o & out & Run & Pr & So); try assumption.
  exists o, out. split; [exact Run|]. split; [exact Pr|]. split; [exact So|]. intros value T w program' stdin' headers' body' k i name' W Z M' K.
  set (key := SkRsa (C := real_crypto) (mkRsaSecret (mkRsaKey n e) d [])) in *.
  pose proof (program_readable E dom sel key headers [body] clock o Sd Ss Ck So) as RO.
  pose proof (program_not_oversigned E dom sel key headers body clock o So Io RO) as OV.
  assert (key_published E (request_for E dom sel key) program_config (fun p => zone (key_name p))) as Kp
    by (eapply (rsa_key_published pre m idna (request_for E dom sel key)); try eassumption; try reflexivity; discriminate).
  destruct (rsa_any pre m idna program_config (request_for E dom sel key) headers [body] clock 0%nat o zone Io RO OV Kp One eq_refl) as (sig & SR & Ws & Th).
  destruct (program_result E T w zone program' stdin' headers' body' k i name' value W Z M' K) as (t & rs & r' & V & Li & Kr & R & Ln).
  destruct (Th _ _ _ _ _ R) as (data & data' & err & D & D' & F & S & _).
  exists t, rs, r', sig, data, data', err. split; [exact V|]. split; [exact Li|]. split; [exact Kr|]. split; [exact D|]. split; [exact D'|]. split; [|split; [exact S|]].
  - assert (alg_hash (s_algorithm sig) = Sha256) as Ah.
    { destruct (program_parts E dom sel key headers body clock o So) as (fs & _ & _ & _ & _ & Al). destruct Ws as (W1 & _). rewrite W1, Al. reflexivity. }
    rewrite Ah in F. cbn [concat] in F. rewrite app_nil_r in F.
    assert (same_name (so_header_name o) name') as Sn.
    { destruct (field_named E _ _ _ _ _ _ Io RO) as [Fn _]. pose proof (result_named E _ _ _ _ _ _ _ _ R) as Y. unfold same_name in *. congruence. }
    exact (program_checked E dom sel key headers body clock o So _ sig headers' name' _ body' err Io RO Ws Sn F).
  - rewrite Ln. rewrite (status_lines _ _ S). reflexivity.
Qed.

Lemma ed_program_signs : forall order clock files program key_file dom sel stdin headers body pem bs key,
  idna_ok idna -> length key = 32%nat -> Forall is_byte key -> 
  ed_private_info_der key bs -> pem_text (lit "PRIVATE KEY") bs pem -> files key_file = Some (as_bytes pem) ->
  domain_text idna dom true -> domain_text idna sel false -> Forall is_scalar dom -> Forall is_scalar sel ->
  message_input stdin headers body -> (exists f, In f headers /\ same_name (fst f) (lit "From")) ->
  (forall l, Permutation (order l) l) ->
  exists o out, dkimsign E real_pem files order clock [program; key_file; dom; sel] stdin = Val (mkExit 0 out []) /\ printed o out
    /\ signed_output E headers [body] clock 0 (request_for E dom sel (SkEd25519 (C := real_crypto) key)) o.
Proof.
  intros order clock files program key_file dom sel stdin headers body pem bs key Io Len By Inf Pem Fl Hd Hs Sd Ss M From O.
  set (sk := SkEd25519 (C := real_crypto) key).
  pose proof (ed_private_bytes _ _ Inf By) as Bs.
  assert (can_sign E real_pem files key_file dom sel stdin sk headers body) as Can.
  { split; [|auto]. exists pem. split; [exact Fl|]. split; [eapply pem_scalar; eassumption|].
    eapply ed_pem_key; eassumption. }
  destruct (dkimsign_spec E real_pem files order clock program key_file dom sel stdin (real_typed pre m idna) Io O Sd Ss) as (D & _).
  destruct (D sk headers body Can) as [(o & out & Run & So & Pr)|(_ & Bad)]; [exists o, out; auto|].
  exfalso. inversion Bad; subst. match goal with H : primitive_sign _ _ _ _ = None |- _ => rename H into PS end.
  unfold sk in PS. cbn [request_for r_signing_key primitive_sign] in PS. discriminate PS.
Qed.

Theorem ed_programs_any : forall order clock files zone program key_file dom sel stdin headers body pem bs key public,
  idna_ok idna -> length key = 32%nat -> Forall is_byte key -> ed_public_key sha512 key public ->
  ed_private_info_der key bs -> pem_text (lit "PRIVATE KEY") bs pem -> files key_file = Some (as_bytes pem) ->
  domain_text idna dom true -> domain_text idna sel false -> Forall is_scalar dom -> Forall is_scalar sel ->
  message_input stdin headers body -> (exists f, In f headers /\ same_name (fst f) (lit "From")) ->
  (forall l, Permutation (order l) l) -> clock 0%nat < 2^64 ->
  ed_published E zone dom sel public -> sole_record E zone dom sel ->
  exists o out, dkimsign E real_pem files order clock [program; key_file; dom; sel] stdin = Val (mkExit 0 out []) /\ printed o out
    /\ signed_output E headers [body] clock 0 (request_for E dom sel (SkEd25519 (C := real_crypto) key)) o
    /\ let value := as_bytes (so_header_value o) in
       forall T w program' stdin' headers' body' k i name', world_ok w -> steady (w_resolver w) zone ->
       message_input stdin' headers' body' -> nth_error (examined program_config headers') k = Some (i, (name', value)) ->
       exists t rs r' sig data data' err,
         dkimverify E (show_result T) w [program'] stdin' = Val (mkExit 0 t []) /\ listing (show_result T) 1 rs t /\ nth_error rs k = Some r'
         /\ signed_text E (signature_field o :: headers) (so_header_name o) value sig data /\ signed_text E headers' name' value sig data'
         /\ first_of (program_checks headers headers'
                        (default_intact headers headers' \/ ed_clash sha512 (hash_fn real_crypto Sha256) public (s_signature_data sig) data data')
                        (body_same E body body')) err
         /\ vr_status r' = status_of err /\ nth_error (lines_with (lit "    status: ") t) k = Some (status_line err).
Proof.
  intros order clock files zone program key_file dom sel stdin headers body pem bs key public Io Len By P Inf Pem Fl Hd Hs Sd Ss M From O Ck Pub One.
  destruct (ed_program_signs order clock files program key_file dom sel stdin headers body pem bs key) as (o & out & Run & Pr & So); try assumption.
  exists o, out. split; [exact Run|]. split; [exact Pr|]. split; [exact So|]. intros value T w program' stdin' headers' body' k i name' W Z M' K.
  set (sk := SkEd25519 (C := real_crypto) key) in *.
  pose proof (program_readable E dom sel sk headers [body] clock o Sd Ss Ck So) as RO.
  pose proof (program_not_oversigned E dom sel sk headers body clock o So Io RO) as OV.
  assert (key_published E (request_for E dom sel sk) program_config (fun p => zone (key_name p))) as Kp
    by (eapply (ed_key_published pre m idna (request_for E dom sel sk)); try eassumption; try reflexivity).
  destruct (ed_any pre m idna program_config (request_for E dom sel sk) headers [body] clock 0%nat o zone key public Io RO OV Kp One P Pub) as (sig & SR & Ws & Th).
  destruct (program_result E T w zone program' stdin' headers' body' k i name' value W Z M' K) as (t & rs & r' & V & Li & Kr & R & Ln).
  destruct (Th _ _ _ _ _ R) as (data & data' & err & D & D' & F & S & _).
  exists t, rs, r', sig, data, data', err. split; [exact V|]. split; [exact Li|]. split; [exact Kr|]. split; [exact D|]. split; [exact D'|]. split; [|split; [exact S|]].
  - assert (alg_hash (s_algorithm sig) = Sha256) as Ah.
    { destruct (program_parts E dom sel sk headers body clock o So) as (fs & _ & _ & _ & _ & Al). destruct Ws as (W1 & _). rewrite W1, Al. reflexivity. }
    rewrite Ah in F. cbn [concat] in F. rewrite app_nil_r in F.
    assert (same_name (so_header_name o) name') as Sn.
    { destruct (field_named E _ _ _ _ _ _ Io RO) as [Fn _]. pose proof (result_named E _ _ _ _ _ _ _ _ R) as Y. unfold same_name in *. congruence. }
    exact (program_checked E dom sel sk headers body clock o So _ sig headers' name' _ body' err Io RO Ws Sn F).
  - rewrite Ln. rewrite (status_lines _ _ S). reflexivity.
Qed.
End Real.
