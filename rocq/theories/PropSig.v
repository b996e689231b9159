(** Properties C24-C27, C31: DKIM signatures. *)

From Coq Require Import String List Permutation.
From Verif Require Import Base Utf8 Canon BodyHash TagList Domain Signature SpecText SpecHeader SpecTag SpecCanon
  SpecDomain SpecSig TagListProofs SigProofs Lib Sample.
Import ListNotations.
Open Scope N_scope.

(** C24.  A text is accepted exactly when it is a tag list without duplicates
    that describes a signature. *)
Theorem C24_signature_exact : forall pre idna s sig,
  sig_from_str pre idna s = Val (Ok sig) <->
  exists tags, tag_list_text s (map (fun t => (tag_name t, tag_value t)) tags)
    /\ NoDup (map fst (map (fun t => (tag_name t, tag_value t)) tags))
    /\ signature_of pre idna tags sig.
Proof.
  intros pre idna s sig. rewrite sig_ok_iff. split; intros (tags & H); exists tags.
  - rewrite tag_list_ok in H. tauto.
  - rewrite tag_list_ok. tauto.
Qed.
Print Assumptions C24_signature_exact.

Theorem C24_never_panics : forall pre idna s, exists r, sig_from_str pre idna s = Val r.
Proof. intros. destruct (sig_from_str_spec pre idna s) as (r & H & _). eauto. Qed.
Print Assumptions C24_never_panics.

Theorem C24_invariants : forall pre idna s sig, sig_from_str pre idna s = Val (Ok sig) ->
  (exists n, In n (s_signed_headers sig) /\ same_name n (lit "From"))
  /\ Forall field_name (s_signed_headers sig)
  /\ s_signature_data sig <> [] /\ s_body_hash sig <> []
  /\ domain_text idna (s_domain sig) true /\ domain_text idna (s_selector sig) false
  /\ match s_identity sig with
     | Some i => lower (id_domain i) = lower (s_domain sig) \/ ascii_subdomain idna (id_domain i) (s_domain sig)
     | None => True
     end
  /\ match s_timestamp sig, s_expiration sig with Some t, Some x => t < x | _, _ => True end
  /\ Forall (fun '(n, _) => ~ In n known_sig_tags) (s_ext_tags sig)
  /\ (pre = false -> s_algorithm sig <> RsaSha1).
Proof. exact sig_invariants. Qed.
Print Assumptions C24_invariants.

Definition sample_sig : str := crlf_lines (u " v = 1 ; a=rsa-sha256;d=example.net; s=brisbane;
  c=relaxed; q=dns/txt; i=foo=2Dbar@☕.example.net; t=10; x=11; foo=bar; l=5;
  h=from:to : Subject; z=From:=20a|To:b;
  bh=MTIz NDU2;
  b=dzdV").
Example C24_example :
  sig_from_str false sample_idna sample_sig
  = Val (Ok (mkSig RsaSha256 [119; 55; 85] [49; 50; 51; 52; 53; 54] (mkCanon Relaxed Simple) (lit "example.net")
      [lit "from"; lit "to"; lit "Subject"]
      (Some (mkIdentity (Some (lit "foo-bar")) (u "☕.example.net"))) (Some 5) (lit "brisbane") (Some 10) (Some 11)
      [(lit "From", lit " a"); (lit "To", lit "b")] [(lit "foo", lit "bar")])).
Proof. vm_compute. reflexivity. Qed.

(** C25 *)
Theorem C25_signature_tag_order : forall pre idna s s' tags tags' sig,
  tag_list_from_str s = Ok tags -> tag_list_from_str s' = Ok tags' -> Permutation tags tags' ->
  sig_from_str pre idna s = Val (Ok sig) ->
  exists sig', sig_from_str pre idna s' = Val (Ok sig')
    /\ s_algorithm sig' = s_algorithm sig /\ s_signature_data sig' = s_signature_data sig
    /\ s_body_hash sig' = s_body_hash sig /\ s_canonicalization sig' = s_canonicalization sig
    /\ s_domain sig' = s_domain sig /\ s_signed_headers sig' = s_signed_headers sig
    /\ s_identity sig' = s_identity sig /\ s_body_length sig' = s_body_length sig
    /\ s_selector sig' = s_selector sig /\ s_timestamp sig' = s_timestamp sig
    /\ s_expiration sig' = s_expiration sig /\ s_copied_headers sig' = s_copied_headers sig
    /\ Permutation (s_ext_tags sig') (s_ext_tags sig).
Proof. exact sig_order. Qed.
Print Assumptions C25_signature_tag_order.

Example C25_example :
  let s := lit "v=1;d=a.org;s=x;e=1;a=rsa-sha256;h=from;b=AAAA;f=2;bh=AAAA" in
  let s' := lit "f=2;b=AAAA;bh=AAAA;v=1;d=a.org;e=1;s=x;a=rsa-sha256;h=from" in
  exists tags tags' sig, tag_list_from_str s = Ok tags /\ tag_list_from_str s' = Ok tags'
    /\ Permutation tags tags' /\ sig_from_str false sample_idna s = Val (Ok sig)
    /\ s_ext_tags sig = [(lit "e", lit "1"); (lit "f", lit "2")].
Proof.
  cbv zeta. eexists. eexists. eexists. split; [vm_compute; reflexivity|]. split; [vm_compute; reflexivity|].
  split; [|split; [vm_compute; reflexivity|reflexivity]].
  repeat match goal with
  | |- Permutation (?x :: _) ?l =>
      let rec go acc l := match l with
        | x :: ?r => eapply perm_trans; [|apply (Permutation_middle (rev acc) r x)]; cbn [rev app]; apply perm_skip
        | ?y :: ?r => go (y :: acc) r end in go (@nil TagSpec) l
  end. reflexivity.
Qed.

(** C26.  The error is that of the first offending tag in order, else the first
    missing mandatory tag, else one of the two checks across tags; and it carries
    the raw texts. *)
Theorem C26_error_exact : forall pre idna s e,
  sig_from_str pre idna s = Val (Err e) <->
  (~ (exists pairs, tag_list_text s pairs /\ NoDup (map fst pairs))
     /\ e = mkSigError ETagListFormat None None None None None)
  \/ (exists tags k, tag_list_text s (map (fun t => (tag_name t, tag_value t)) tags)
       /\ NoDup (map fst (map (fun t => (tag_name t, tag_value t)) tags))
       /\ first_error pre idna tags k
       /\ e = mkSigError k (get "a" tags) (get "b" tags) (get "d" tags) (get "i" tags) (get "s" tags)).
Proof. exact sig_error_exact. Qed.
Print Assumptions C26_error_exact.

Theorem C26_raw_tags : forall pre idna s tags e,
  tag_list_from_str s = Ok tags -> sig_from_str pre idna s = Val (Err e) ->
  forall v,
    (se_algorithm_str e = Some v <-> In (mkTag (lit "a") v) tags)
    /\ (se_signature_data_str e = Some v <-> In (mkTag (lit "b") v) tags)
    /\ (se_domain_str e = Some v <-> In (mkTag (lit "d") v) tags)
    /\ (se_identity_str e = Some v <-> In (mkTag (lit "i") v) tags)
    /\ (se_selector_str e = Some v <-> In (mkTag (lit "s") v) tags).
Proof. exact sig_raw_tags. Qed.
Print Assumptions C26_raw_tags.

Example C26_example :
  let kind s := match sig_from_str false sample_idna s with
                | Val (Err e) => Some (se_kind e)
                | _ => None
                end in
  sig_from_str false sample_idna (lit "v=1;a=rsa-sha1;d=;s=x;b=!;i=@y")
    = Val (Err (mkSigError EHistoricAlgorithm (Some (lit "rsa-sha1")) (Some (lit "!")) (Some []) (Some (lit "@y"))
                 (Some (lit "x"))))
  /\ sig_from_str false sample_idna (lit "v=1;v=1;a=x") = Val (Err (mkSigError ETagListFormat None None None None None))
  /\ kind (lit "v=1;a=rsa-sha256;b=AAAA;bh=AAAA;d=a.org;s=x") = Some EMissingSignedHeadersTag
  /\ kind (lit "v=1;a=rsa-sha256;b=AAAA;bh=AAAA;d=a.org;s=x;h=to") = Some EFromHeaderNotSigned
  /\ kind (lit "v=1;a=rsa-sha256;b=AAAA;bh=AAAA;d=a.org;s=x;h=from;i=@b.org") = Some EDomainMismatch
  /\ kind (lit "v=1;a=rsa-sha256;b=AAAA;bh=AAAA;d=a.org;s=x;h=from;i=@c.a.org;t=9;x=9") = Some EExpirationNotAfterTimestamp
  /\ kind (lit "v=1;a=rsa-sha256;b=AAAA;bh=AAAA;d=a.org;s=x;h=from;i=@c.a.org;t=9;x=10") = None.
Proof. repeat split; vm_compute; reflexivity. Qed.

(** C27 *)
Theorem C27_numbers_exact : forall t n, parse_u64 t = Some n <-> number_text t n.
Proof. exact parse_u64_spec. Qed.
Print Assumptions C27_numbers_exact.

(** as seen in an accepted signature: the tag is a number, and this is the value *)
Theorem C27_signature_numbers : forall pre idna s tags sig,
  tag_list_from_str s = Ok tags -> sig_from_str pre idna s = Val (Ok sig) ->
  optional number_text (get "l" tags) (s_body_length sig)
  /\ optional number_text (get "t" tags) (s_timestamp sig)
  /\ optional number_text (get "x" tags) (s_expiration sig).
Proof.
  intros pre idna s tags sig H1 H2. apply sig_ok_iff in H2. destruct H2 as (tags' & E & H).
  assert (tags' = tags) as -> by congruence.
  destruct H as (_ & _ & _ & _ & _ & _ & _ & _ & H9 & _ & _ & H12 & H13 & _). auto.
Qed.
Print Assumptions C27_signature_numbers.

(** Digits and nothing else, if there is no plus sign, *)
Theorem C27_digits_partial : forall t n, hd_error t <> Some 43 ->
  (parse_u64 t = Some n <-> t <> [] /\ Forall (fun c => 48 <= c <= 57) t /\ n = decimal t /\ n < 2^64).
Proof.
  intros t n P. rewrite C27_numbers_exact. split.
  - intros (d & H1 & H2 & [->| ->] & H4 & H5); [auto|]. exfalso. apply P. reflexivity.
  - intros (H1 & H2 & H3 & H4). exists t. auto.
Qed.
Print Assumptions C27_digits_partial.

(** but a signature with a plus sign is accepted, too. *)
Theorem C27_digits_refuted : ~ forall pre idna s tags sig t, tag_list_from_str s = Ok tags ->
  sig_from_str pre idna s = Val (Ok sig) -> get "l" tags = Some t -> Forall (fun c => 48 <= c <= 57) t.
Proof.
  intros H. set (s := lit "v=1; a=rsa-sha256; d=example.com; s=sel; h=from; bh=AQID; b=AQID; l=+7").
  destruct (tag_list_from_str s) as [tags|] eqn:T; [|vm_compute in T; discriminate T].
  destruct (sig_from_str false sample_idna s) as [[sig|]|] eqn:S; [|vm_compute in S; discriminate S|vm_compute in S; discriminate S].
  pose proof (H _ _ _ _ _ (lit "+7") T S) as X. vm_compute in T. injection T as <-.
  specialize (X eq_refl). apply Forall_inv in X. destruct X as [X _]. vm_compute in X. apply X. reflexivity.
Qed.
Print Assumptions C27_digits_refuted.

Example C27_example :
  number_text (lit "0018446744073709551615") 18446744073709551615
  /\ parse_u64 (lit "18446744073709551616") = None
  /\ parse_u64 (lit "1 2") = None /\ parse_u64 (lit "-1") = None /\ parse_u64 (lit "+7") = Some 7
  /\ parse_u64 (lit "+") = None /\ parse_u64 [] = None.
Proof. split; [apply parse_u64_spec; vm_compute; reflexivity|]. repeat split; vm_compute; reflexivity. Qed.

(** C31 *)
Theorem C31_algorithm_names : forall pre t a,
  alg_from_str pre t = Some a <-> algorithm_text pre t a.
Proof. exact alg_from_str_spec. Qed.
Print Assumptions C31_algorithm_names.

Theorem C31_canonicalization_names : forall t c,
  canonicalization_from_str t = Some c <-> canonicalization_text t c.
Proof. exact canonicalization_from_str_spec. Qed.
Print Assumptions C31_canonicalization_names.

Theorem C31_names_round_trip :
  (forall pre a, (a = RsaSha1 -> pre = true) -> alg_from_str pre (alg_str a) = Some a)
  /\ (forall c, canon_alg_from_str (canon_alg_str c) = Some c)
  /\ (forall c, canonicalization_from_str (canonicalization_str c) = Some c)
  /\ (forall a, alg_from_parts (alg_key_type a) (alg_hash a) = Some a)
  /\ (forall k h a, alg_from_parts k h = Some a -> alg_key_type a = k /\ alg_hash a = h)
  /\ (forall a, alg_str a = key_type_str (alg_key_type a) ++ lit "-" ++ hash_alg_str (alg_hash a)).
Proof.
  repeat split.
  - intros pre [| |] H; [reflexivity|reflexivity|]. rewrite (H eq_refl). reflexivity.
  - intros [|]; reflexivity.
  - intros [[|] [|]]; reflexivity.
  - intros [| |]; reflexivity.
  - destruct k, h; simpl in H; try discriminate; injection H as <-; reflexivity.
  - destruct k, h; simpl in H; try discriminate; injection H as <-; reflexivity.
  - intros [| |]; reflexivity.
Qed.
Print Assumptions C31_names_round_trip.

(** in the default build, no SHA-1 algorithm *)
Theorem C31_no_sha1 : forall t, alg_from_str false t <> Some RsaSha1 /\ ~ In Sha1 (all_hash_algs false).
Proof.
  intros t. split.
  - intros H. apply alg_from_str_spec in H. inversion H. discriminate.
  - intros [H|[]]. discriminate.
Qed.
Print Assumptions C31_no_sha1.

Example C31_example :
  alg_from_str false (lit "RSA-sha256") = Some RsaSha256
  /\ alg_from_str false (lit "rsa-sha1") = None
  /\ alg_from_str true (lit "Rsa-Sha1") = Some RsaSha1
  /\ canonicalization_from_str (lit "Relaxed") = Some (mkCanon Relaxed Simple)
  /\ canonicalization_from_str (lit "simple/RELAXED") = Some (mkCanon Simple Relaxed)
  /\ canonicalization_from_str (lit "simple/") = None
  /\ canonicalization_from_str (lit "simple/simple/simple") = None.
Proof. repeat split; reflexivity. Qed.
