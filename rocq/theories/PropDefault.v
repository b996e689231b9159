(** Property C55: what signers and verifiers do by default. *)

From Coq Require Import String List Permutation.
From Verif Require Import Base Utf8 Canon BodyHash Header Domain Signature KeyRecord Crypto TagList Format Sign Verify
  SpecText SpecCanon SpecHash SpecHeader SpecTag SpecDomain SpecSig SpecRecord SpecFormat SpecSign SpecOutput SpecVerify SpecEnd
  OutputProofs WidthProofs VerifyRun VerifyFacts EndProofs DefaultProofs Lib Sample PropDomain PropSign PropOutput PropVerify PropEnd.
Import ListNotations.
Open Scope N_scope.

(** ** C55 *)

(** The signature made for a request in which nothing is set. *)
Theorem C55_fresh_signature : forall E d s alg key headers chunks clock j o,
  signed_output E headers chunks clock j (request_new E d s alg key) o ->
  so_header_name o = lit "DKIM-Signature"
  /\ exists data fs, selected (fun f => In (lower (fst f)) signed_by_default) headers fs
  /\ so_signature o = {|
       s_algorithm := alg;
       s_signature_data := data;
       s_body_hash := hash_fn (env_crypto E) (alg_hash alg) (canonical_body Simple (concat chunks));
       s_canonicalization := mkCanon Relaxed Simple;
       s_domain := d;
       s_signed_headers := rev (map fst fs);
       s_identity := None;
       s_body_length := None;
       s_selector := s;
       s_timestamp := Some (clock j);
       s_expiration := Some (N.min (clock j + 5 * 24 * 60 * 60) (2^64 - 1));
       s_copied_headers := [];
       s_ext_tags := [] |}.
Proof.
  intros E d s alg key headers chunks clock j o H. split; [exact (fresh_name _ _ _ _ _ _ _ _ _ _ H)|].
  destruct (fresh_unsigned_part _ _ _ _ _ _ _ _ _ _ H) as (fs & S & X). exists (s_signature_data (so_signature o)), fs. split; [exact S|].
  destruct (so_signature o). unfold unsigned_part in X. cbn in X. injection X. intros. subst. reflexivity.
Qed.
Print Assumptions C55_fresh_signature.

(** Its text: tags in a fixed order, lines of at most 78 characters indented by a
    tab, where a line may be longer by a semicolon or have no place to break it. *)
Theorem C55_fresh_text : forall E d s alg key headers chunks clock j o, idna_ok (env_idna E) -> signature_sizes (env_crypto E) ->
  signed_output E headers chunks clock j (request_new E d s alg key) o ->
  exists b64 ps first more,
    base64 (s_signature_data (so_signature o)) b64
    /\ tags_pieces (env_idna E) (unsigned_part (so_signature o)) false b64
         (map lit ["v"; "d"; "s"; "a"; "c"; "t"; "x"; "h"; "bh"; "b"]%string) ps
    /\ format_header o = unlines first more
    /\ indented (fun w => w = [9]) (so_header_value o)
    /\ Forall (fun l => (length l <= 78)%nat \/ (exists l', l = l' ++ [59] /\ length l' = 78%nat)
         \/ exists token, l = [9] ++ token /\ Forall visible token) (first :: more).
Proof.
  intros E d s alg key headers chunks clock j o IO Z H.
  destruct (fresh_unsigned_part _ _ _ _ _ _ _ _ _ _ H) as (fs & _ & U).
  destruct (C40_lines_partial E headers chunks clock j _ o IO Z H) as (b64 & ps & first & more & B & P & X & Y); [constructor|].
  destruct (C34_output_is_a_field_partial E headers chunks clock j _ o IO H) as (_ & _ & _ & _ & _ & I).
  exists b64, ps, first, more. split; [exact B|]. split; [rewrite U in P |- *; exact P|]. split; [exact X|]. split; [apply I; constructor|].
  destruct (signed_output_of _ _ _ _ _ _ _ H) as (pre & post & n & b64' & O).
  assert (Forall (fun p => Forall visible (p_text p)) ps) as V.
  { eapply pieces_visible; [eassumption|apply (oo_sound _ _ _ _ _ _ _ _ _ _ _ _ O)| | |exact P].
    - eapply base64_visible; [|exact B]. apply (oo_bytes _ _ _ _ _ _ _ _ _ _ _ _ O).
    - rewrite U. constructor. }
  eapply Forall_impl; [|exact Y]. intros l [_ Hl]. rewrite Forall_forall in V. destruct Hl as [l A|l A| |p stop A Bp].
  - left. exact A.
  - right; left. exists l. auto.
  - left. rewrite (fresh_name _ _ _ _ _ _ _ _ _ _ H). apply Nat.leb_le. reflexivity.
  - right; right. exists (p_text p ++ stop). split; [reflexivity|]. apply Forall_app. split; [auto|].
    destruct Bp as [->| ->]; [constructor|]. constructor; [unfold visible; lia|constructor].
Qed.
Print Assumptions C55_fresh_text.

(** Fields that are better left unsigned are not chosen. *)
Theorem C55_better_unsigned : forall E d s alg key headers chunks clock j o n m,
  signed_output E headers chunks clock j (request_new E d s alg key) o ->
  In n (s_signed_headers (so_signature o)) -> In m default_unsigned_headers -> ~ same_name n m.
Proof.
  intros E d s alg key headers chunks clock j o n m H Hn Hm S. destruct (fresh_unsigned_part _ _ _ _ _ _ _ _ _ _ H) as (fs & Sel & U).
  apply (f_equal u_signed_headers) in U. cbn in U. rewrite U in Hn. apply In_rev in Hn. apply in_map_iff in Hn as (h & <- & Hin).
  assert (In (lower (fst h)) signed_by_default) as X.
  { clear - Sel Hin. induction Sel; [destruct Hin| |auto]. destruct Hin as [<-|Hin]; auto. }
  unfold same_name in S. rewrite S in X.
  assert (forallb (fun m => negb (existsb (leqb (lower m)) signed_by_default)) default_unsigned_headers = true) as Z by (vm_compute; reflexivity).
  rewrite forallb_forall in Z. specialize (Z m Hm). apply Bool.negb_true_iff in Z. apply Bool.not_true_iff_false in Z. apply Z.
  apply existsb_exists. exists (lower m). split; [exact X|apply leqb_refl].
Qed.
Print Assumptions C55_better_unsigned.

Theorem C55_better_unsigned_names : forall n,
  (exists m, In m default_unsigned_headers /\ same_name n m)
  <-> In (lower n) (map lit ["return-path"; "received"; "comments"; "keywords"]%string).
Proof.
  intros n. unfold same_name. split.
  - intros (m & Hm & ->). cbn [default_unsigned_headers In] in Hm. destruct Hm as [<-|[<-|[<-|[<-|[]]]]]; vm_compute; auto.
  - intros H. cbn [map In] in H. destruct H as [<-|[<-|[<-|[<-|[]]]]].
    + exists (lit "Return-Path"). vm_compute. auto.
    + exists (lit "Received"). vm_compute. auto.
    + exists (lit "Comments"). vm_compute. auto.
    + exists (lit "Keywords"). vm_compute. auto 6.
Qed.
Print Assumptions C55_better_unsigned_names.

(** A success under the default configuration. *)
Theorem C55_default_success : forall E w headers chunks answer rs i name value r,
  evaluation E w headers default_config chunks answer rs -> result_for default_config headers rs i name value r ->
  vr_status r = Success ->
  let now := w_clock w i in
  (* among the first ten *)
  (exists k, (k < 10)%nat /\ nth_error (signature_fields 0 headers) k = Some (i, (name, value)))
  /\ exists sig, vr_signature r = Some sig
     (* every From field is signed *)
     /\ (occurrences (lit "From") (map fst headers) <= occurrences (lit "From") (s_signed_headers sig))%nat
     (* neither expired nor made in the future, give or take five minutes *)
     /\ (forall x, s_expiration sig = Some x -> now < x + 300)
     /\ (forall t, s_timestamp sig = Some t -> t <= now + 300)
     (* with strong algorithms *)
     /\ alg_hash (s_algorithm sig) = Sha256
     /\ exists k key, vr_key_record r = Some k /\ key_in E (k_key_type k) (k_key_data k) key
          /\ forall pk, key = VkRsa pk -> 1024 <= rsa_size (env_crypto E) pk * 8.
Proof.
  intros E w headers chunks answer rs i name value r Ev R S now.
  split; [exact (examined_nth _ _ _ _ _ _ _ R)|].
  destruct (evaluation_verdict _ _ _ _ _ _ _ _ _ _ _ Ev R) as (V & _).
  destruct (verdict_success_record _ _ _ _ _ _ _ _ _ _ V S) as (s & sig & txt & k & p & txts & _ & G & Hs & Hk & _ & _ & _ & A & _).
  exists sig. split; [exact Hs|]. destruct G as (_ & G2 & _ & G4 & G5 & G6). cbn in G2, G4, G5, G6.
  split; [apply G2; left; reflexivity|]. split; [intros x X; apply (G4 eq_refl x X)|]. split; [intros t X; apply (G5 eq_refl t X)|].
  split; [apply G6; reflexivity|]. destruct A as (rt & key & _ & _ & _ & _ & _ & _ & K & Z & _). exists k, key. split; [exact Hk|]. split; [exact K|].
  intros pk X. specialize (Z pk X). cbn in Z. change (cf_min_key_bits default_config) with 1024 in Z. lia.
Qed.
Print Assumptions C55_default_success.

(** Nothing more is asked for: a signature that meets this, with a record that
    confirms it, over this body, has success. *)
Theorem C55_default_enough : forall E w headers chunks answer rs i name value r sig s p txts txt k,
  evaluation E w headers default_config chunks answer rs -> result_for default_config headers rs i name value r ->
  let now := w_clock w i in
  now < 2^64 - 1 ->
  signature_read E value s (Ok sig) ->
  (occurrences (lit "From") (map fst headers) <= occurrences (lit "From") (s_signed_headers sig))%nat ->
  (forall x, s_expiration sig = Some x -> now < x + 300) ->
  (forall t, s_timestamp sig = Some t -> t <= now + 300) ->
  alg_hash (s_algorithm sig) = Sha256 ->
  s_body_length sig = None ->
  lookup_pair E sig p -> answer p = Ok txts -> In txt (consulted txts) ->
  record_accepts E headers default_config sig name s txt k ->
  hash_fn (env_crypto E) Sha256 (canonical_body (c_body (s_canonicalization sig)) (concat chunks)) = s_body_hash sig ->
  vr_status r = Success.
Proof.
  intros E w headers chunks answer rs i name value r sig s p txts txt k Ev R now L SR F X T A BL LP An In_ RA BH.
  apply (C42_success _ _ _ _ _ _ _ _ _ _ _ Ev R). exists sig, s, p, txts, txt, k. split; [exact SR|].
  split; [|split; [exact LP|split; [exact An|split; [exact In_|split; [exact RA|]]]]].
  - split; [intros n []|]. split; [intros n [<-|[]]; exact F|]. split; [intros l Hl; congruence|].
    split; [intros _ x Hx; split; [exact (X x Hx)|exact L]|]. split; [intros _ t Ht; exact (T t Ht)|auto].
  - unfold body_matches. cbv zeta. rewrite BL, A. exact BH.
Qed.
Print Assumptions C55_default_enough.

(** What can be read off the default configuration; the time limit for lookups
    has no other effect (see C46_timeout_unused). *)
Theorem C55_default_values : forall config, config = default_config <->
  cf_lookup_timeout config = 10 /\ cf_max_signatures config = 10%nat
  /\ cf_headers_required_in_signature config = [] /\ cf_headers_forbidden_to_be_unsigned config = [lit "From"]
  /\ cf_min_key_bits config = 1024 /\ cf_allow_sha1 config = false /\ cf_forbid_unsigned_content config = false
  /\ cf_allow_expired config = false /\ cf_allow_timestamp_in_future config = false
  /\ cf_time_tolerance config = 300 /\ cf_fixed_system_time config = None.
Proof.
  intros config. split; [intros ->; repeat split; reflexivity|].
  destruct config. cbn. intros (-> & -> & -> & -> & -> & -> & -> & -> & -> & -> & ->). reflexivity.
Qed.
Print Assumptions C55_default_values.

Example C55_example : signed_output ascii_env sample_headers output_chunks (fun _ => 1000) 0 fresh_request fresh_output
  /\ signature_sizes (env_crypto ascii_env) /\ idna_ok (env_idna ascii_env)
  /\ format_header fresh_output = crlf_lines
       (lit "DKIM-Signature: v=1; d=Example.com; s=a-very.long-selector.name; a=rsa-sha256;
" ++ [9] ++ lit "c=relaxed; t=1000; x=433000; h=Subject:To:From; bh=TkzB0g==; b=BybQFluqqqqqqq
" ++ [9] ++ lit "qqqqqqqqqqqqqqqqqqqqqqqqqqqqqqqqqqqqqqqg==").
Proof.
  split; [apply ascii_signed; try (vm_compute; auto; fail); exact sample_header_fields|].
  split; [exact sized_sizes|]. split; [exact ascii_idna_ok|vm_compute; reflexivity].
Qed.

Example C55_success_example :
  evaluation ascii_env (sample_world 20 good_records) signed_headers default_config output_chunks
    (fun p => sample_zone good_records (key_name p)) (sample_results default_config good_records)
  /\ result_for default_config signed_headers (sample_results default_config good_records) 1 (fst good_field) (snd good_field)
       (nth 1 (sample_results default_config good_records) (mkVResult Success 0 None None))
  /\ vr_status (nth 1 (sample_results default_config good_records) (mkVResult Success 0 None None)) = Success.
Proof.
  split; [apply sample_evaluation; vm_compute; reflexivity|]. split; [exists 1%nat; split; vm_compute; reflexivity|vm_compute; reflexivity].
Qed.
