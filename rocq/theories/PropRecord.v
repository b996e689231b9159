(** Properties C32, and the parts of C25 and C31 about key records. *)

From Coq Require Import String List Permutation.
From Verif Require Import Base Utf8 Canon BodyHash TagList Signature KeyRecord SpecText SpecTag SpecCanon
  SpecSig SpecRecord TagListProofs SigProofs RecordProofs Lib Sample.
From Verif Require Report.
Import ListNotations.
Open Scope N_scope.

(** C32.  A text is accepted exactly when it is a tag list without duplicates
    that describes a key record. *)
Theorem C32_record_exact : forall pre s r,
  record_from_str pre s = Val (Ok r) <->
  exists tags, tag_list_text s (map (fun t => (tag_name t, tag_value t)) tags)
    /\ NoDup (map fst (map (fun t => (tag_name t, tag_value t)) tags))
    /\ record_of pre tags r.
Proof. exact record_exact. Qed.
Print Assumptions C32_record_exact.

Theorem C32_error_exact : forall pre s e,
  record_from_str pre s = Val (Err e) <->
  (~ (exists pairs, tag_list_text s pairs /\ NoDup (map fst pairs)) /\ e = KTagListFormat)
  \/ (exists tags, tag_list_text s (map (fun t => (tag_name t, tag_value t)) tags)
       /\ NoDup (map fst (map (fun t => (tag_name t, tag_value t)) tags))
       /\ key_first_error pre tags e).
Proof. exact record_error_exact. Qed.
Print Assumptions C32_error_exact.

Theorem C32_never_panics : forall pre s, exists v, record_from_str pre s = Val v.
Proof. intros. eapply decides_val. apply record_from_str_spec. Qed.
Print Assumptions C32_never_panics.

Theorem C32_invariants : forall pre s r, record_from_str pre s = Val (Ok r) ->
  k_hash_algorithms r <> [] /\ k_service_types r <> []
  /\ (pre = false -> ~ In Sha1 (k_hash_algorithms r))
  /\ Forall (fun '(n, _) => ~ In n known_key_tags) (k_ext_tags r).
Proof. exact record_invariants. Qed.
Print Assumptions C32_invariants.

Theorem C32_is_testing : forall r, is_testing r = true <-> In Testing (k_flags r).
Proof.
  intros r. unfold is_testing. rewrite existsb_exists. split.
  - intros ([|] & H1 & H2); [exact H1|discriminate].
  - intros H. exists Testing. auto.
Qed.
Print Assumptions C32_is_testing.

(** notes that are not UTF-8 are still readable *)
Theorem C32_notes_lossy : forall bs s, from_utf8_lossy bs = s <-> lossy_text bs s.
Proof. exact lossy_spec. Qed.
Print Assumptions C32_notes_lossy.

Example C32_example :
  record_from_str false (lit "v=DKIM1; p=AAAB; n=x=E2=98x; h=sha1:SHA256; s=tlsrpt:Email:*; t=y:zz:S; e=5")
    = Val (Ok (mkKeyRecord [Sha256] Rsa (Some [120; 0xFFFD; 120]) [0; 0; 1] [SvcEmail; SvcAny]
                 [Testing; NoSubdomains] [(lit "e", lit "5")]))
  /\ record_from_str false (lit "p=") = Val (Ok (mkKeyRecord [Sha256] Rsa None [] [SvcAny] [] []))
  /\ record_from_str true (lit "p=; k=Ed25519;")
     = Val (Ok (mkKeyRecord [Sha256; Sha1] Ed25519 None [] [SvcAny] [] []))
  /\ record_from_str false (lit "p=; v=DKIM1") = Val (Err MisplacedVersionTag)
  /\ record_from_str false (lit "v=DKIM2; p=") = Val (Err KIncompatibleVersion)
  /\ record_from_str false (lit "v=DKIM1; h=sha1; p=") = Val (Err NoSupportedHashAlgorithms)
  /\ record_from_str false (lit "v=DKIM1; s=a::b; p=") = Val (Err InvalidServiceType)
  /\ record_from_str false (lit "v=DKIM1") = Val (Err MissingKeyTag)
  /\ lossy_text [120; 0xE2; 0x98; 120] [120; 0xFFFD; 120].
Proof. repeat split; try (vm_compute; reflexivity). apply lossy_spec. vm_compute. reflexivity. Qed.

(** C25 *)
Theorem C25_record_tag_order : forall pre s s' tags tags' r,
  tag_list_from_str s = Ok tags -> tag_list_from_str s' = Ok tags' -> Permutation tags tags' ->
  (forall t, In t tags -> tag_name t = lit "v" -> hd_error tags' = Some t) ->
  record_from_str pre s = Val (Ok r) ->
  exists r', record_from_str pre s' = Val (Ok r')
    /\ k_hash_algorithms r' = k_hash_algorithms r /\ k_key_type r' = k_key_type r
    /\ k_notes r' = k_notes r /\ k_key_data r' = k_key_data r
    /\ k_service_types r' = k_service_types r /\ k_flags r' = k_flags r
    /\ Permutation (k_ext_tags r') (k_ext_tags r).
Proof. exact record_order. Qed.
Print Assumptions C25_record_tag_order.

Example C25_record_example :
  let s := lit "v=DKIM1;p=AAAB;e=1" in
  let s' := lit "v=DKIM1;e=1;p=AAAB" in
  exists tags tags' r, tag_list_from_str s = Ok tags /\ tag_list_from_str s' = Ok tags'
    /\ Permutation tags tags'
    /\ (forall t, In t tags -> tag_name t = lit "v" -> hd_error tags' = Some t)
    /\ record_from_str false s = Val (Ok r).
Proof.
  cbv zeta. eexists. eexists. eexists. split; [vm_compute; reflexivity|]. split; [vm_compute; reflexivity|].
  split; [apply perm_skip; apply perm_swap|]. split; [|vm_compute; reflexivity].
  intros t [<-|[<-|[<-|[]]]] H; try discriminate. reflexivity.
Qed.

(** C31 *)
Theorem C31_record_names : forall pre tags r, record_of pre tags r ->
  (forall t, get "h" tags = Some t -> names_text (hash_name pre) t (k_hash_algorithms r))
  /\ (forall t, get "k" tags = Some t -> key_type_name t (k_key_type r))
  /\ (forall t, get "s" tags = Some t -> names_text service_name t (k_service_types r))
  /\ (forall t, get "t" tags = Some t -> names_text flag_name t (k_flags r)).
Proof.
  intros pre tags r (_ & H2 & H3 & _ & _ & H6 & H7 & _). unfold or_default in *.
  repeat split; intros t G; rewrite G in *; tauto.
Qed.
Print Assumptions C31_record_names.

Theorem C31_record_names_round_trip :
  (forall pre h, (h = Sha1 -> pre = true) -> hash_name pre (hash_alg_str h) (Some h))
  /\ (forall k, key_type_name (key_type_str k) k)
  /\ (forall s, service_name (Report.service_type_str s) (Some s))
  /\ (forall f, flag_name (Report.selector_flag_str f) (Some f))
  /\ (forall pre h, In h (all_hash_algs pre) <-> (h = Sha1 -> pre = true)).
Proof.
  split; [|split; [|split; [|split]]].
  - intros pre [|] H; constructor; auto; reflexivity.
  - intros [|]; constructor; reflexivity.
  - intros [|]; [apply sn_any|apply sn_email]; reflexivity.
  - intros [|]; [apply fn_testing|apply fn_nosub]; reflexivity.
  - intros [|] [|]; simpl; split; intros H; auto; try discriminate.
    + destruct H as [H|[]]. discriminate.
    + discriminate (H eq_refl).
Qed.
Print Assumptions C31_record_names_round_trip.
