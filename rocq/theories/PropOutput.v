(** Properties C34, C35, C36, C40: the signer's output. *)

From Coq Require Import String List Permutation.
From Verif Require Import Base Utf8 Canon BodyHash Header Domain Signature Crypto TagList Format Sign Verify
  SpecText SpecCanon SpecHash SpecHeader SpecTag SpecDomain SpecSig SpecFormat SpecSign SpecOutput
  DomainProofs SignProofs HeaderProofs OutputProofs OutputParse OriginalProofs WidthProofs Lib Sample PropDomain PropSign.
Import ListNotations.
Open Scope N_scope.

(** ** A sample *)

(** as [toy_crypto], with signatures of fixed size *)
Definition sized_crypto : Crypto :=
  let sized n k d := firstn n (toy_sign k d ++ repeat 170 n) in
  mkCrypto toy_hash N N N N
    (fun _ => 40%nat)
    (fun _ k d => if k =? 0 then None else Some (sized 40%nat k d))
    (sized 64%nat)
    (fun data => match data with 1 :: k :: _ => Some k | _ => None end)
    (fun data => match data with 2 :: k :: _ => Some k | _ => None end)
    toy_read toy_read
    (fun k => 32 * k)
    (fun pk _ d s => leqb s (sized 40%nat pk d))
    (fun pk d s => leqb s (sized 64%nat pk d)).
Definition ascii_env : Env := mkEnv false u64_max ascii_idna sized_crypto.

Lemma ascii_idna_ok : idna_ok ascii_idna.
Proof.
  assert (forall s, forallb is_ascii (to_ascii_lowercase s) = forallb is_ascii s) as A.
  { intros s. unfold to_ascii_lowercase. induction s as [|c s IH]; [reflexivity|]. cbn [map forallb]. rewrite IH. f_equal.
    unfold ascii_lower, is_ascii_upper, in_range, is_ascii. destruct ((65 <=? c) && (c <=? 90)) eqn:X; lia. }
  assert (forall s, to_ascii_lowercase (to_ascii_lowercase s) = to_ascii_lowercase s) as L.
  { intros s. unfold to_ascii_lowercase. rewrite map_map. apply map_ext. intros c. unfold ascii_lower, is_ascii_upper, in_range.
    destruct ((65 <=? c) && (c <=? 90)) eqn:X; [|rewrite X; reflexivity]. destruct ((65 <=? c + 32) && (c + 32 <=? 90)) eqn:Y; lia. }
  constructor.
  - apply (proj1 C28_relation_example).
  - intros a. cbn. congruence.
  - intros s a c. cbn. destruct (forallb is_ascii s); [|discriminate]. intros H. injection H as <-. intros Hc _. right.
    rewrite <- HeaderCanonProofs.lower_eq in *. rewrite L. exact Hc.
  - intros s a t. cbn. destruct (forallb is_ascii s); [|discriminate]. intros H K. injection H as <-. injection K as <-. intros c Hc _.
    rewrite <- HeaderCanonProofs.lower_eq in *. rewrite L. exact Hc.
  - intros s a t. cbn. destruct (forallb is_ascii s) eqn:X; [|discriminate]. intros H K. injection H as <-. injection K as <-.
    split; [auto|]. rewrite A, X, L. auto.
Qed.

Lemma sized_bytes : forall n k d, Forall is_byte (firstn n (toy_sign k d ++ repeat 170 n)).
Proof.
  intros n k d. apply Forall_forall. intros b H. assert (In b (toy_sign k d ++ repeat 170 n)) as K.
  { rewrite <- (firstn_skipn n (toy_sign k d ++ repeat 170 n)). apply in_app_iff. left. exact H. }
  clear H. rename K into H. apply in_app_iff in H as [H|H].
  - unfold toy_sign in H. apply in_map_iff in H as (x & <- & _). unfold is_byte. lia.
  - apply repeat_spec in H. subst. unfold is_byte. lia.
Qed.

Lemma sized_length : forall n k d, length (firstn n (toy_sign k d ++ repeat 170 n)) = n.
Proof. intros n k d. rewrite firstn_length, app_length, repeat_length. lia. Qed.

Lemma sized_typed : crypto_typed ascii_env.
Proof.
  split; [|split].
  - intros a d. cbn. unfold toy_hash. cbv zeta. repeat constructor; unfold is_byte; lia.
  - intros a k d s. cbn. destruct (k =? 0); [discriminate|]. intros H. injection H as <-. apply (sized_bytes 40).
  - intros. apply (sized_bytes 64).
Qed.

Lemma sized_sizes : signature_sizes sized_crypto.
Proof.
  split.
  - intros a k d s. cbn. destruct (k =? 0); [discriminate|]. intros H. injection H as <-. apply (sized_length 40).
  - intros. apply (sized_length 64).
Qed.

Lemma sized_nonempty : crypto_nonempty sized_crypto.
Proof.
  split; [discriminate|]. destruct sized_sizes as [A B]. split.
  - intros a k d s H X. apply A in H. subst. discriminate.
  - intros k d X. specialize (B k d). rewrite X in B. discriminate.
Qed.

Definition output_request : SignRequest ascii_env :=
  mkRequest ascii_env (SkRsa (C := sized_crypto) 7) RsaSha256 (mkCanon Relaxed Relaxed) (lit "Example.com") Auto
    (Some (mkIdentity (Some (lit "me")) (lit "x.example.com"))) MessageContent (lit "a-very.long-selector.name") TsNow (Some 9) true
    [(lit "foo", lit "bar")] (mkFormat (lit "Dkim-Signature") 18 (lit "  ") (Some (@rev _)) true).
Definition output_chunks : list (list byte) := [lit "Hi"; [13; 10]].
Definition output_sample : SigningOutput :=
  match sign_message ascii_env (fun l => l) sample_headers [output_request] output_chunks (fun _ => 1000) with
  | Val (Ok [Ok o]) => o
  | _ => mkOutput [] [] (mkSig RsaSha256 [] [] (mkCanon Simple Simple) [] [] None None [] None None [] [])
  end.

Lemma env_signed : forall C, let E := mkEnv false u64_max ascii_idna C in
  forall (r : SignRequest E) headers o, crypto_typed E -> header_fields headers ->
  domain_new ascii_idna (r_domain E r) = Val (Some (r_domain E r)) ->
  selector_new ascii_idna (r_selector E r) = Val (Some (r_selector E r)) ->
  match r_identity E r with
  | Some i => domain_new ascii_idna (id_domain i) = Val (Some (id_domain i))
              /\ forallb is_ascii (unwrap_or (id_local_part i) []) = true
  | None => True
  end ->
  match r_header_selection E r with
  | Manual names => forallb (fun n => is_some (field_name_new n)) names = true
  | Auto => True
  end ->
  match of_tag_order (r_format E r) with
  | Some sort => forall names, Permutation (sort names) names
  | None => True
  end ->
  sign_message E (fun l => l) headers [r] output_chunks (fun _ => 1000) = Val (Ok [Ok o]) ->
  signed_output E headers output_chunks (fun _ => 1000) 0 r o.
Proof.
  intros C E r headers o Ht Hh H1 H2 H3 H4 H5 Hs.
  split; [exact Ht|]. split; [exact Hh|]. exists (fun l => l), [r], [Ok o].
  split; [|split; [intros; reflexivity|split; [exact Hs|split; reflexivity]]].
  constructor; [|constructor].
  assert (forall s, domain_new ascii_idna s = Val (Some s) -> domain_text ascii_idna s true) as D.
  { intros s H. destruct (domain_new_spec ascii_idna s) as (x & Ex & X). rewrite Ex in H. injection H as ->. apply (X s). reflexivity. }
  assert (forall s, selector_new ascii_idna s = Val (Some s) -> domain_text ascii_idna s false) as S.
  { intros s H. destruct (selector_new_spec ascii_idna s) as (x & Ex & X). rewrite Ex in H. injection H as ->. apply (X s). reflexivity. }
  split; [apply D; exact H1|]. split; [apply S; exact H2|]. split; [|split].
  - intros i Hi. rewrite Hi in H3. destruct H3 as [X Y]. split; [apply D; exact X|].
    intros l Hl. rewrite Hl in Y. cbn [unwrap_or] in Y. rewrite forallb_forall in Y. apply Forall_forall. intros c Hc.
    specialize (Y c Hc). unfold is_ascii in Y. unfold is_scalar. lia.
  - intros names Hn. rewrite Hn in H4. rewrite forallb_forall in H4. apply Forall_forall. intros n Hi.
    specialize (H4 n Hi). destruct (field_name_new n) eqn:X; [|discriminate]. apply HeaderProofs.field_name_new_spec in X. tauto.
  - exact H5.
Qed.

Lemma ascii_signed : forall (r : SignRequest ascii_env) headers o, header_fields headers ->
  domain_new ascii_idna (r_domain ascii_env r) = Val (Some (r_domain ascii_env r)) ->
  selector_new ascii_idna (r_selector ascii_env r) = Val (Some (r_selector ascii_env r)) ->
  match r_identity ascii_env r with
  | Some i => domain_new ascii_idna (id_domain i) = Val (Some (id_domain i))
              /\ forallb is_ascii (unwrap_or (id_local_part i) []) = true
  | None => True
  end ->
  match r_header_selection ascii_env r with
  | Manual names => forallb (fun n => is_some (field_name_new n)) names = true
  | Auto => True
  end ->
  match of_tag_order (r_format ascii_env r) with
  | Some sort => forall names, Permutation (sort names) names
  | None => True
  end ->
  sign_message ascii_env (fun l => l) headers [r] output_chunks (fun _ => 1000) = Val (Ok [Ok o]) ->
  signed_output ascii_env headers output_chunks (fun _ => 1000) 0 r o.
Proof. intros. apply env_signed; try assumption. exact sized_typed. Qed.

Lemma output_signed : signed_output ascii_env sample_headers output_chunks (fun _ => 1000) 0 output_request output_sample.
Proof.
  apply ascii_signed; try (vm_compute; auto; fail); [exact sample_header_fields|].
  intros names. symmetry. apply Permutation_rev.
Qed.

Lemma text_no_cr : forall l, Forall (fun c => visible c \/ c = 32 \/ c = 9) l -> no_cr l.
Proof. intros l H I. rewrite Forall_forall in H. destruct (H _ I) as [[V|V]|[V|V]]; lia. Qed.

(** ** C34 *)

(** The output is a header field with the name configured; [to_header_field] does
    not panic.  Continuation lines start with the indentation, unless a value of
    an additional tag brings its own line breaks. *)
Theorem C34_output_is_a_field_partial : forall E headers chunks clock j r o, idna_ok (env_idna E) ->
  signed_output E headers chunks clock j r o ->
  to_header_field o = Val (so_header_name o, as_bytes (so_header_value o))
  /\ so_header_name o = of_header_name (r_format E r) /\ same_name (so_header_name o) (lit "DKIM-Signature")
  /\ field_name (so_header_name o) /\ field_body (as_bytes (so_header_value o))
  /\ (Forall one_line (map snd (r_ext_tags E r)) ->
      indented (fun w => w = of_indentation (r_format E r)) (so_header_value o)).
Proof.
  intros E headers chunks clock j r o IO H. destruct (signed_output_of _ _ _ _ _ _ _ H) as (pre & post & n & b64 & O).
  destruct (output_field E _ _ _ _ _ _ _ _ _ _ _ IO O) as (A & B & C & D).
  split; [exact A|]. split; [exact B|]. split; [|auto]. rewrite B. apply (oo_format _ _ _ _ _ _ _ _ _ _ _ _ O).
Qed.
Print Assumptions C34_output_is_a_field_partial.

Example C34_example : idna_ok (env_idna ascii_env)
  /\ signed_output ascii_env sample_headers output_chunks (fun _ => 1000) 0 output_request output_sample
  /\ Forall one_line (map snd (r_ext_tags ascii_env output_request))
  /\ so_header_value output_sample = crlf_lines (lit "
  foo=bar; z=From:
  =20me@example.co
  m|To:=20a,=0D=0A
  =20b|Subject:=20
  =3D=7C=3B; b=B34
  LqK6qqqqqqqqqqqq
  qqqqqqqqqqqqqqqq
  qqqqqqqqqqqqqqqq
  qqg==; bh=TkzB0g
  ==; h=Subject:
  To:From; x=1009;
  t=1000; l=4;
  c=relaxed/relaxed;
  a=rsa-sha256;
  s=a-very.long-selector.name;
  i=me@x.example.com;
  d=Example.com;
  v=1").
Proof.
  split; [exact ascii_idna_ok|]. split; [exact output_signed|]. split; [|vm_compute; reflexivity].
  constructor; [|constructor]. apply visible_one_line. change (Forall visible [98; 97; 114]). unfold visible. repeat constructor; lia.
Qed.

(** ** C35 *)

(** The header value is read back as the signature reported, where domain names
    are in the form written. *)
Theorem C35_output_parses_partial : forall E headers chunks clock j r o, idna_ok (env_idna E) -> crypto_nonempty (env_crypto E) ->
  signed_output E headers chunks clock j r o -> readable_request E r (clock j) -> clock j < 2^64 ->
  copied_names_safe (so_signature o) ->
  exists sig', sig_from_str (env_pre E) (env_idna E) (so_header_value o) = Val (Ok sig')
    /\ written_signature (env_idna E) (r_format E r) (so_signature o) sig'.
Proof.
  intros E headers chunks clock j r o IO NE H R T S. destruct (signed_output_of _ _ _ _ _ _ _ H) as (pre & post & n & b64 & O).
  eapply output_parses; eassumption.
Qed.
Print Assumptions C35_output_parses_partial.

Example C35_example : idna_ok (env_idna ascii_env) /\ crypto_nonempty (env_crypto ascii_env)
  /\ signed_output ascii_env sample_headers output_chunks (fun _ => 1000) 0 output_request output_sample
  /\ readable_request ascii_env output_request 1000 /\ copied_names_safe (so_signature output_sample)
  /\ sig_from_str false ascii_idna (so_header_value output_sample) = Val (Ok (so_signature output_sample)).
Proof.
  split; [exact ascii_idna_ok|]. split; [exact sized_nonempty|]. split; [exact output_signed|]. split; [|split; [|vm_compute; reflexivity]].
  - constructor.
    + cbn [r_domain r_selector r_identity output_request]. repeat split; try (repeat constructor; cbn; lia).
      intros i H. injection H as <-. repeat constructor; cbn; lia.
    + intros i l H. injection H as <-. intros H. injection H as <-. change (local_part [109; 101]). split; [apply Nat.leb_le; vm_compute; reflexivity|]. left.
      exists [[109; 101]]. split; [discriminate|]. split; [|reflexivity]. constructor; [|constructor]. split; [discriminate|].
      unfold atext, letter_digit. repeat constructor; lia.
    + discriminate.
    + intros [X|[]]. discriminate.
    + intros t H. injection H as <-. cbn. lia.
  - repeat constructor; vm_compute; intros X; repeat destruct X as [X|X]; try discriminate X; exact X.
Qed.

(** Without these conditions this fails: a tag q= is accepted by the signer and
    rejected by the parser; an expiration is capped so as to equal the timestamp. *)
Definition odd_request (ts : Timestamp) (ext : list (str * str)) : SignRequest ascii_env :=
  mkRequest ascii_env (SkRsa (C := sized_crypto) 7) RsaSha256 (mkCanon Relaxed Relaxed) (lit "example.com") Auto
    None NoLimit (lit "sel") ts (Some 9) true ext default_format.
Definition odd_output (r : SignRequest ascii_env) (headers : list HeaderField) : SigningOutput :=
  match sign_message ascii_env (fun l => l) headers [r] output_chunks (fun _ => 1000) with
  | Val (Ok [Ok o]) => o
  | _ => output_sample
  end.
Definition odd_error (r : SignRequest ascii_env) (headers : list HeaderField) : option SigErrorKind :=
  match sig_from_str false ascii_idna (so_header_value (odd_output r headers)) with
  | Val (Err e) => Some (se_kind e)
  | _ => None
  end.
Definition odd_headers : list HeaderField := [(lit "From", lit " me"); (lit "X=41", lit " a")].

Lemma odd_header_fields : header_fields odd_headers.
Proof.
  repeat constructor; try discriminate; try (cbn; lia).
  - exists (lit " me"), []. repeat constructor; cbn; try lia.
  - exists (lit " a"), []. repeat constructor; cbn; try lia.
Qed.

Theorem C35_any_request_refuted : ~ forall E headers chunks clock j r o, idna_ok (env_idna E) -> crypto_nonempty (env_crypto E) ->
  signed_output E headers chunks clock j r o -> clock j < 2^64 ->
  exists sig', sig_from_str (env_pre E) (env_idna E) (so_header_value o) = Val (Ok sig').
Proof.
  intros H. destruct (H ascii_env sample_headers output_chunks (fun _ => 1000) 0%nat (odd_request (TsExact u64_max) [])
    (odd_output (odd_request (TsExact u64_max) []) sample_headers) ascii_idna_ok sized_nonempty) as (s & X); [|reflexivity|].
  - apply ascii_signed; try (vm_compute; auto; fail). exact sample_header_fields.
  - vm_compute in X. discriminate X.
Qed.
Print Assumptions C35_any_request_refuted.

(** Nor can the condition on names of copied fields be dropped: a field named X=41
    is read back as one named XA. *)
Definition copying_request (name : str) : SignRequest ascii_env :=
  mkRequest ascii_env (SkRsa (C := sized_crypto) 7) RsaSha256 (mkCanon Relaxed Relaxed) (lit "example.com")
    (Manual [lit "From"; name]) None NoLimit (lit "sel") TsNow (Some 9) true [] default_format.

Theorem C35_copied_names_refuted : ~ forall E headers chunks clock j r o, idna_ok (env_idna E) -> crypto_nonempty (env_crypto E) ->
  signed_output E headers chunks clock j r o -> readable_request E r (clock j) -> clock j < 2^64 ->
  exists sig', sig_from_str (env_pre E) (env_idna E) (so_header_value o) = Val (Ok sig')
    /\ written_signature (env_idna E) (r_format E r) (so_signature o) sig'.
Proof.
  intros H. destruct (H ascii_env odd_headers output_chunks (fun _ => 1000) 0%nat (copying_request (lit "X=41"))
    (odd_output (copying_request (lit "X=41")) odd_headers) ascii_idna_ok sized_nonempty) as (s & X & W).
  - apply ascii_signed; try (vm_compute; auto; fail). exact odd_header_fields.
  - constructor.
    + cbn [r_domain r_selector r_identity copying_request]. repeat split; try (repeat constructor; cbn; lia). discriminate.
    + discriminate.
    + discriminate.
    + intros [].
    + intros t T. injection T as <-. cbn. lia.
  - reflexivity.
  - vm_compute in X. injection X as <-. vm_compute in W. decompose [and] W. discriminate.
Qed.
Print Assumptions C35_copied_names_refuted.

Definition identity_request (local : str) : SignRequest ascii_env :=
  mkRequest ascii_env (SkRsa (C := sized_crypto) 7) RsaSha256 (mkCanon Relaxed Relaxed) (lit "example.com") Auto
    (Some (mkIdentity (Some local) (lit "example.com"))) NoLimit (lit "sel") TsNow (Some 9) true [] default_format.

Example C35_problems :
  odd_error (odd_request (TsExact u64_max) []) sample_headers = Some EExpirationNotAfterTimestamp
  /\ odd_error (odd_request TsNow [(lit "q", lit "foo")]) sample_headers = Some ENoSupportedQueryMethods
  /\ odd_error (copying_request (lit "X|Y")) [(lit "From", lit " me"); (lit "X|Y", lit " a")] = Some EInvalidCopiedHeaderField
  /\ odd_error (copying_request (lit "X=")) [(lit "From", lit " me"); (lit "X=", lit " a")] = Some EInvalidCopiedHeaderField
  /\ odd_error (identity_request (lit "a b")) sample_headers = Some EInvalidIdentity.
Proof. repeat split; vm_compute; reflexivity. Qed.

(** ** C34, C40 without conditions *)

(** Line breaks in the value of an additional tag are kept as they are. *)
Definition folded_tag_request : SignRequest ascii_env :=
  odd_request TsNow [(lit "y", lit "a" ++ [13; 10; 32] ++ lit "b")].

Theorem C34_indentation_refuted : ~ forall E headers chunks clock j r o, idna_ok (env_idna E) ->
  signed_output E headers chunks clock j r o ->
  indented (fun w => w = of_indentation (r_format E r)) (so_header_value o).
Proof.
  intros H. destruct (H ascii_env sample_headers output_chunks (fun _ => 1000) 0%nat folded_tag_request
    (odd_output folded_tag_request sample_headers) ascii_idna_ok) as (f & m & E & F & M).
  - apply ascii_signed; try (vm_compute; auto; fail). exact sample_header_fields.
  - assert (split_crlf (so_header_value (odd_output folded_tag_request sample_headers)) = f :: m) as S.
    { rewrite E. apply split_crlf_complete.
      - eapply text_no_cr. exact F.
      - eapply Forall_impl; [|exact M]. intros l (w & c & r & -> & -> & V & R). intros I. apply in_app_or in I as [I|I].
        + vm_compute in I. destruct I as [I|[]]. discriminate I.
        + revert I. apply text_no_cr. constructor; [left; exact V|exact R]. }
    vm_compute in S. injection S as _ <-. rewrite Forall_forall in M.
    destruct (M (32 :: lit "b")) as (w & c & r & X & W & _).
    + vm_compute. repeat (try (left; reflexivity); right).
    + vm_compute in W. subst w. discriminate X.
Qed.
Print Assumptions C34_indentation_refuted.

(** A line may be too long by a semicolon, though it could have been broken. *)
Definition narrow_request : SignRequest ascii_env :=
  mkRequest ascii_env (SkRsa (C := sized_crypto) 7) RsaSha256 (mkCanon Simple Simple) (lit "example.com") Auto
    None NoLimit (lit "sel") TsNow None false [] (mkFormat (lit "Dkim-Signature") 18 (lit " ") None true).

Theorem C40_width_refuted : ~ forall E headers chunks clock j r o, idna_ok (env_idna E) -> signature_sizes (env_crypto E) ->
  signed_output E headers chunks clock j r o -> Forall (Forall visible) (map snd (r_ext_tags E r)) ->
  let f := r_format E r in
  (length (so_header_name o) < of_line_width f)%nat ->
  exists first more,
    so_header_name o ++ [58] ++ so_header_value o = unlines first more
    /\ Forall (fun l => no_line_break l /\
         ((length l <= of_line_width f)%nat \/ exists token, l = of_indentation f ++ token /\ Forall visible token)) (first :: more).
Proof.
  intros H. destruct (H ascii_env sample_headers output_chunks (fun _ => 1000) 0%nat narrow_request
    (odd_output narrow_request sample_headers) ascii_idna_ok sized_sizes) as (f & m & E & M).
  - apply ascii_signed; try (vm_compute; auto; fail). exact sample_header_fields.
  - constructor.
  - apply Nat.ltb_lt. vm_compute. reflexivity.
  - assert (split_crlf (so_header_name (odd_output narrow_request sample_headers) ++ [58] ++ so_header_value (odd_output narrow_request sample_headers)) = f :: m) as S.
    { rewrite E. inversion M as [|? ? [[C _] _] M']; subst. apply split_crlf_complete.
      - exact C.
      - eapply Forall_impl; [|exact M']. intros l [[C' _] _]. exact C'. }
    rewrite <- S in M. rewrite Forall_forall in M.
    destruct (M (lit " From; bh=TkzB0g==;")) as [_ [L|(t & X & V)]].
    + vm_compute. repeat (try (left; reflexivity); right).
    + apply Nat.leb_le in L. vm_compute in L. discriminate L.
    + change (32 :: lit "From; bh=TkzB0g==;" = 32 :: t) in X. injection X as <-.
      rewrite Forall_forall in V. destruct (V 32) as [A|A]; [vm_compute; tauto|lia|lia].
Qed.
Print Assumptions C40_width_refuted.

(** ** C36 *)

(** What the verifier hashes in place of a DKIM-Signature value: the text without
    the value of b= and the whitespace around it, all else as is. *)
Theorem C36_signature_removed : forall s tags v, tag_list_from_str s = Ok tags -> get "b" tags = Some v ->
  signature_removed s v (make_original_dkim_sig s).
Proof. exact original_spec. Qed.
Print Assumptions C36_signature_removed.

Theorem C36_no_signature : forall s tags, tag_list_from_str s = Ok tags -> get "b" tags = None ->
  make_original_dkim_sig s = s.
Proof. exact original_unchanged. Qed.
Print Assumptions C36_no_signature.

(** For an output of the signer this is the very text signed. *)
Theorem C36_signed_text : forall E headers chunks clock j r o, idna_ok (env_idna E) ->
  signed_output E headers chunks clock j r o ->
  let s := so_signature o in
  primitive_sign E (r_signing_key E r) (s_algorithm s)
    (hash_fn (env_crypto E) (alg_hash (s_algorithm s))
      (header_hash_input (c_header (s_canonicalization s)) headers (s_signed_headers s)
       ++ canonical_field (c_header (s_canonicalization s))
            (so_header_name o, as_bytes (make_original_dkim_sig (so_header_value o)))))
  = Some (s_signature_data s).
Proof.
  intros E headers chunks clock j r o IO H s. destruct (signed_output_of _ _ _ _ _ _ _ H) as (pre & post & n & b64 & O).
  rewrite (output_original E _ _ _ _ _ _ _ _ _ _ _ IO O). pose proof (oo_sign _ _ _ _ _ _ _ _ _ _ _ _ O) as S.
  replace (so_header_name o) with (of_header_name (r_format E r)) by (rewrite (oo_o _ _ _ _ _ _ _ _ _ _ _ _ O); reflexivity).
  assert (r_algorithm E r = s_algorithm s) as A; [|rewrite A in S; exact S].
  destruct (oo_u _ _ _ _ _ _ _ _ _ _ _ _ O) as (? & ? & ? & ? & _ & _ & _ & X). apply (f_equal u_algorithm) in X. symmetry. exact X.
Qed.
Print Assumptions C36_signed_text.

Example C36_example :
  idna_ok (env_idna ascii_env) /\ signed_output ascii_env sample_headers output_chunks (fun _ => 1000) 0 output_request output_sample
  /\ (exists tags v, tag_list_from_str (so_header_value output_sample) = Ok tags /\ get "b" tags = Some v /\ v <> [])
  /\ (exists tags, tag_list_from_str (lit "a=b ; b = x" ++ [13; 10; 32] ++ lit "y ; bb=b") = Ok tags
       /\ get "b" tags = Some (lit "x" ++ [13; 10; 32] ++ lit "y"))
  /\ make_original_dkim_sig (lit "a=b ; b = x" ++ [13; 10; 32] ++ lit "y ; bb=b") = lit "a=b ; b =; bb=b"
  /\ (exists tags, tag_list_from_str (lit "a= b") = Ok tags /\ get "b" tags = None).
Proof.
  split; [exact ascii_idna_ok|]. split; [exact output_signed|]. split; [|split; [|split]].
  - do 2 eexists. split; [vm_compute; reflexivity|]. split; [vm_compute; reflexivity|]. discriminate.
  - eexists. split; vm_compute; reflexivity.
  - vm_compute; reflexivity.
  - eexists. split; vm_compute; reflexivity.
Qed.

(** ** C40 *)

(** Lines, including the header name, within the width, but for a semicolon after
    the last character of bh=, b=, z=; and for text that cannot be broken. *)
Theorem C40_lines_partial : forall E headers chunks clock j r o, idna_ok (env_idna E) -> signature_sizes (env_crypto E) ->
  signed_output E headers chunks clock j r o -> Forall one_line (map snd (r_ext_tags E r)) ->
  let u := unsigned_part (so_signature o) in let f := r_format E r in
  exists b64 ps first more,
    base64 (s_signature_data (so_signature o)) b64
    /\ tags_pieces (env_idna E) u (of_ascii_only f) b64 (tag_names u f) ps
    /\ so_header_name o ++ [58] ++ so_header_value o = unlines first more
    /\ Forall (fun l => no_line_break l /\ line_ok (of_line_width f) (of_indentation f) (so_header_name o) ps l) (first :: more).
Proof.
  intros E headers chunks clock j r o IO Z H L. destruct (signed_output_of _ _ _ _ _ _ _ H) as (pre & post & n & b64 & O).
  destruct (output_width E _ _ _ _ _ _ _ _ _ _ _ IO Z O L) as (ps & first & more & X). exists b64, ps, first, more.
  split; [apply (oo_b64 _ _ _ _ _ _ _ _ _ _ _ _ O)|exact X].
Qed.
Print Assumptions C40_lines_partial.

(** A line that is too long has no blank after the indentation. *)
Theorem C40_long_lines_partial : forall E headers chunks clock j r o, idna_ok (env_idna E) -> signature_sizes (env_crypto E) ->
  signed_output E headers chunks clock j r o -> Forall (Forall visible) (map snd (r_ext_tags E r)) ->
  let f := r_format E r in
  exists first more,
    so_header_name o ++ [58] ++ so_header_value o = unlines first more
    /\ Forall (fun l => no_line_break l /\
         ((length l <= of_line_width f)%nat \/ (exists l', l = l' ++ [59] /\ length l' = of_line_width f)
          \/ l = so_header_name o ++ [58] \/ exists token, l = of_indentation f ++ token /\ Forall visible token)) (first :: more).
Proof.
  intros E headers chunks clock j r o IO Z H L. destruct (signed_output_of _ _ _ _ _ _ _ H) as (pre & post & n & b64 & O).
  destruct (output_width E _ _ _ _ _ _ _ _ _ _ _ IO Z O) as (ps & first & more & P & X & Y).
  { eapply Forall_impl; [|exact L]. exact visible_one_line. }
  exists first, more. split; [exact X|]. eapply Forall_impl; [|exact Y]. intros l [Hn Hl]. split; [exact Hn|].
  assert (Forall (fun p => Forall visible (p_text p)) ps) as V.
  { eapply pieces_visible; [eassumption|apply (oo_sound _ _ _ _ _ _ _ _ _ _ _ _ O)| | |exact P].
    - eapply base64_visible; [apply (oo_bytes _ _ _ _ _ _ _ _ _ _ _ _ O)|apply (oo_b64 _ _ _ _ _ _ _ _ _ _ _ _ O)].
    - destruct (oo_u _ _ _ _ _ _ _ _ _ _ _ _ O) as (? & ? & ? & ? & _ & _ & _ & ->). exact L. }
  rewrite Forall_forall in V. destruct Hl as [l A|l A| |p stop A B]; eauto 6.
  right; right; right. exists (p_text p ++ stop). split; [reflexivity|]. apply Forall_app. split; [auto|].
  destruct B as [->| ->]; [constructor|]. constructor; [unfold visible; lia|constructor].
Qed.
Print Assumptions C40_long_lines_partial.

(** in [C34_example], lines of width 18, up to one exceeding it *)
Example C40_example : idna_ok (env_idna ascii_env) /\ signature_sizes (env_crypto ascii_env)
  /\ signed_output ascii_env sample_headers output_chunks (fun _ => 1000) 0 output_request output_sample
  /\ Forall (Forall visible) (map snd (r_ext_tags ascii_env output_request))
  /\ map (fun l => length l) (split_on 10 (lit "Dkim-Signature:" ++ so_header_value output_sample))
     = [16; 19; 19; 19; 19; 19; 19; 19; 19; 19; 17; 19; 15; 21; 16; 31; 22; 17; 5]%nat.
Proof.
  split; [exact ascii_idna_ok|]. split; [exact sized_sizes|]. split; [exact output_signed|]. split; [|vm_compute; reflexivity].
  constructor; [|constructor]. change (Forall visible [98; 97; 114]). unfold visible. repeat constructor; lia.
Qed.

(** The width is exceeded by a semicolon. *)
Example C40_semicolon :
  let r := mkRequest ascii_env (SkRsa (C := sized_crypto) 7) RsaSha256 (mkCanon Relaxed Relaxed) (lit "example.com") Auto
    None NoLimit (lit "sel") TsNow (Some 9) true [] (mkFormat (lit "Dkim-Signature") 12 (lit " ") None true) in
  existsb (leqb (10 :: lit " bh=TkzB0g==;")) (split_on 13 (so_header_value (odd_output r sample_headers))) = true.
Proof. vm_compute. reflexivity. Qed.
