(** Proofs about verification: key records. *)

From Coq Require Import String List Sorted Permutation.
From Verif Require Import Base Utf8 Canon BodyHash Header TagList Domain Signature KeyRecord Crypto Verify
  SpecText SpecCanon SpecHash SpecHeader SpecTag SpecDomain SpecSig SpecRecord SpecSign SpecVerify
  Lib Utf8Proofs HeaderProofs HeaderCanonProofs BodyHashProofs DomainProofs TagListProofs SigProofs RecordProofs SignProofs
  VerifyProofs.
Import ListNotations.
Open Scope N_scope.

Section WithEnv.
Variable E : Env.
Notation C := (env_crypto E).
Notation idna := (env_idna E).
Variable headers : list HeaderField.
Hypothesis headers_ok : header_fields headers.
Variable config : Config.

(** ** Keys *)

Lemma key_in_iff : forall kt d k, key_in E kt d k <-> vk_from_key_data C kt d = Some k.
Proof.
  intros kt d k. unfold vk_from_key_data, read_rsa_public_key, read_ed25519_verifying_key. split.
  - intros H. destruct H as [d k H|d k H1 H2|d k H|d k H1 H2]; cbn; try rewrite H; try rewrite H1, H2; reflexivity.
  - destruct kt.
    + destruct (rsa_from_spki C d) as [x|] eqn:A; cbn; [intros [= <-]; constructor; exact A|].
      destruct (rsa_from_pkcs1 C d) as [x|] eqn:B; cbn; [intros [= <-]; apply ki_pkcs1; assumption|discriminate].
    + destruct (ed_from_raw C d) as [x|] eqn:A; cbn; [intros [= <-]; constructor; exact A|].
      destruct (ed_from_spki C d) as [x|] eqn:B; cbn; [intros [= <-]; apply ki_ed_spki; assumption|discriminate].
Qed.

Lemma key_in_det : forall kt d k k', key_in E kt d k -> key_in E kt d k' -> k = k'.
Proof. intros kt d k k' H K. apply key_in_iff in H, K. congruence. Qed.

Lemma alg_type : forall a, alg_key_type a = key_type_for a.
Proof. intros []; reflexivity. Qed.

Lemma key_type_eqb_eq : forall a b, key_type_eqb a b = true <-> a = b.
Proof. intros [] []; cbn; split; congruence. Qed.

Lemma the_key : forall kt d k (P : VerifyingKey C -> Prop), key_in E kt d k -> ((exists k', key_in E kt d k' /\ P k') <-> P k).
Proof. intros kt d k P H. split; [|eauto]. intros (k' & K & X). rewrite (key_in_det _ _ _ _ H K). exact X. Qed.

Lemma identity_ascii : forall s sig i, sig_from_str (env_pre E) idna s = Val (Ok sig) -> s_identity sig = Some i ->
  exists a, idna_to_ascii idna (id_domain i) = Some a.
Proof.
  intros s sig i H Hi. apply sig_ok_iff in H as (tags & _ & H).
  destruct H as (_ & _ & _ & _ & _ & _ & _ & H & _). rewrite Hi in H. unfold optional in H.
  destruct (get "i" tags) as [t|]; [|destruct H].
  destruct H as (v & _ & _ & _ & ((a & A & _) & _) & _). eauto.
Qed.

Lemma signed_digest_spec : forall sig name value, field_name name ->
  compute_data_hash (hash_fn C) (alg_hash (s_algorithm sig)) (c_header (s_canonicalization sig)) headers
    (s_signed_headers sig) name (make_original_dkim_sig value) = signed_digest E headers sig name value.
Proof.
  intros sig name value Hn. unfold compute_data_hash, digest, signed_digest.
  rewrite canonicalize_headers_spec by (eapply Forall_impl; [|exact headers_ok]; intros f (Hf & _); apply field_name_valid; exact Hf).
  rewrite canonicalize_header_spec by (apply field_name_valid; exact Hn). reflexivity.
Qed.

(** what becomes of a signature when a record is tried *)
Definition after_validation (sig : DkimSig) (name value : str) (r : KeyRecord) (v : option VerificationError) : option VerificationError :=
  match v with
  | Some e => Some e
  | None =>
      match read_verifying_key E (alg_key_type (s_algorithm sig)) (k_key_data r) with
      | Err e => Some (VerificationFailure e)
      | Ok key =>
          match validate_verifying_key E key config with
          | Some e => Some e
          | None => perform_verification E headers key sig name value
          end
      end
  end.

Lemma record_checks : forall s sig name value r, sig_from_str (env_pre E) idna s = Val (Ok sig) -> field_name name ->
  exists v, validate_key_record E (alg_key_type (s_algorithm sig)) (alg_hash (s_algorithm sig)) r (s_domain sig) (s_identity sig) = Val v
    /\ first_of (key_checks E headers config sig name value r) (after_validation sig name value r v).
Proof using headers_ok.
  intros s sig name value r Hs Hn.
  set (d := match s_identity sig with Some i => negb (leqb (unwrap_or (idna_to_ascii idna (s_domain sig)) []) (unwrap_or (idna_to_ascii idna (id_domain i)) [])) | None => false end).
  set (a1 := negb (key_type_eqb (k_key_type r) (alg_key_type (s_algorithm sig)))).
  set (a2 := is_nil (k_key_data r)).
  set (a3 := negb (existsb (hash_alg_eqb (alg_hash (s_algorithm sig))) (k_hash_algorithms r))).
  set (a4 := existsb (fun f => match f with NoSubdomains => true | Testing => false end) (k_flags r) && d).
  assert (validate_key_record E (alg_key_type (s_algorithm sig)) (alg_hash (s_algorithm sig)) r (s_domain sig) (s_identity sig)
    = Val (if a1 then Some WrongKeyType else if a2 then Some KeyRevoked else if a3 then Some DisallowedHashAlgorithm
           else if a4 then Some VDomainMismatch else None)) as HV.
  { unfold validate_key_record. fold a1. fold a2. fold a3. destruct a1; [reflexivity|]. destruct a2; [reflexivity|]. destruct a3; [reflexivity|].
    unfold a4. destruct (existsb _ (k_flags r)); [|reflexivity]. unfold d. destruct (s_identity sig) as [i|] eqn:Hi; [|reflexivity].
    destruct (identity_ascii _ _ _ Hs Hi) as (ai & Ai). destruct (sig_invariants _ _ _ _ Hs) as (_ & _ & _ & _ & ((ad & Ad & _) & _) & _).
    unfold domain_to_ascii. rewrite Ai, Ad. cbn [bind unwrap_or andb]. destruct (leqb ad ai); reflexivity. }
  eexists. split; [exact HV|]. clear HV.
  match goal with |- first_of _ (after_validation _ _ _ _ (if a1 then ?x else if a2 then ?y else if a3 then ?z else if a4 then ?u else None)) =>
    replace (after_validation sig name value r (if a1 then x else if a2 then y else if a3 then z else if a4 then u else None))
    with (if a1 then Some WrongKeyType else if a2 then Some KeyRevoked else if a3 then Some DisallowedHashAlgorithm
           else if a4 then Some VDomainMismatch else after_validation sig name value r None) by (destruct a1, a2, a3, a4; reflexivity) end.
  unfold key_checks. cbv zeta. rewrite <- alg_type. set (kt := alg_key_type (s_algorithm sig)) in *.
  apply first_step; [|apply first_step; [|apply first_step; [|apply first_step]]].
  - unfold a1. rewrite negb_true_iff. rewrite <- not_true_iff_false, key_type_eqb_eq. reflexivity.
  - unfold a2. destruct (k_key_data r); cbn; split; congruence.
  - unfold a3. rewrite negb_true_iff, <- not_true_iff_false, existsb_exists. apply not_iff_compat. split.
    + intros (x & H & X). apply hash_alg_eqb_eq in X. subst. exact H.
    + intros H. eexists. split; [exact H|]. apply hash_alg_eqb_eq. reflexivity.
  - unfold a4. rewrite andb_true_iff, existsb_exists. split.
    + intros [(x & H & X) D]. split; [destruct x; [discriminate|exact H]|]. unfold d in D. destruct (s_identity sig) as [i|] eqn:Hi; [|discriminate].
      exists i. split; [reflexivity|]. intros Q. rewrite Q in D. rewrite leqb_refl in D. discriminate.
    + intros [H (i & Hi & D)]. split; [exists NoSubdomains; auto|]. unfold d. rewrite Hi.
      destruct (identity_ascii _ _ _ Hs Hi) as (ai & Ai). destruct (sig_invariants _ _ _ _ Hs) as (_ & _ & _ & _ & ((ad & Ad & _) & _) & _).
      rewrite Ai, Ad in *. cbn. apply negb_true_iff. apply not_true_iff_false. rewrite leqb_eq. congruence.
  - unfold after_validation, read_verifying_key. fold kt.
    destruct (vk_from_key_data C kt (k_key_data r)) as [k|] eqn:K.
    2:{ apply fo_here. intros k H. apply key_in_iff in H. congruence. }
    apply key_in_iff in K. apply fo_next; [intros X; exact (X _ K)|].
    match goal with |- first_of _ (match (if ?b then _ else _) with _ => _ end) => replace b with (negb (negb b)) by apply negb_involutive; set (nb := negb b) end.
    match goal with |- first_of ?l _ => cut (first_of l (if nb then Some (VerificationFailure InsufficientKeySize) else
      match validate_verifying_key E k config with Some e => Some e | None => perform_verification E headers k sig name value end));
      [destruct nb; exact (fun x => x)|] end.
    apply first_step; [rewrite (the_key _ _ _ _ K)|].
    { unfold nb, validate_min_key_size, shorter_than, vk_key_size, min_key_bits. rewrite negb_true_iff. destruct k as [pk|pk].
      - rewrite negb_false_iff. split; [intros H; exists pk; split; [reflexivity|apply N.ltb_lt; exact H]|].
        intros (pk' & [= <-] & H). apply N.ltb_lt. exact H.
      - split; [discriminate|]. intros (? & ? & _). discriminate. }
    set (sm := match vk_key_size C k with Some n => n <? cf_min_key_bits config | None => false end).
    match goal with |- first_of ?l _ => cut (first_of l (if sm then Some (Policy KeyTooSmall) else perform_verification E headers k sig name value)) end.
    { unfold validate_verifying_key, sm. destruct (vk_key_size C k) as [n|]; [|exact (fun x => x)]. destruct (n <? _); exact (fun x => x). }
    apply first_step; [rewrite (the_key _ _ _ _ K)|].
    { unfold sm, shorter_than, vk_key_size. destruct k as [pk|pk].
      - split; [intros H; exists pk; split; [reflexivity|apply N.ltb_lt; exact H]|]. intros (pk' & [= <-] & H). apply N.ltb_lt. exact H.
      - split; [discriminate|]. intros (? & ? & _). discriminate. }
    unfold perform_verification. rewrite (signed_digest_spec sig name value Hn). unfold verify_signature.
    match goal with |- first_of ?l (if ?b then _ else _) => cut (first_of l (if negb b then Some (VerificationFailure CryptoVerificationFailure) else None)); [destruct b; exact (fun x => x)|] end.
    apply first_step; [rewrite (the_key _ _ _ _ K)|constructor].
    rewrite negb_true_iff, <- not_true_iff_false. unfold verifies. destruct k; reflexivity.
Qed.

(** ** Cached records *)

Definition parsed (txt : IoResult (list byte)) (r : result KeyRecord KeyRecordError) : Prop :=
  (record_text txt None /\ r = Err RecordFormat)
  \/ exists s, record_text txt (Some s) /\ record_from_str (env_pre E) s = Val r.

Definition cache_ok (txt : IoResult (list byte)) (c : CachedRecord) : Prop :=
  c = Unparsed (parse_utf8 txt) \/ exists r, c = Parsed r /\ parsed txt r.

Lemma parse_and_cache_spec : forall txt c, cache_ok txt c -> exists r, parse_and_cache E c = Val (r, Parsed r) /\ parsed txt r.
Proof.
  intros txt c [->|(r & -> & P)].
  - destruct (record_text_exists txt) as ([s|] & R); pose proof (parse_utf8_text _ _ R) as X.
    + rewrite X. cbn [parse_and_cache]. destruct (decides_val _ _ _ _ _ (record_from_str_spec (env_pre E) s)) as (v & V). rewrite V. cbn [bind].
      exists v. split; [reflexivity|]. right. eauto.
    + destruct X as (e & X). rewrite X. cbn [parse_and_cache]. eexists. split; [reflexivity|]. left. auto.
  - exists r. split; [reflexivity|exact P].
Qed.

(** an outcome for a task *)
Definition with_outcome (t : VerifyTask) (r : option KeyRecord) (e : option VerificationError) : VerifyTask :=
  set_outcome t (match e with Some e => Failed e | None => Successful end) r.

Lemma try_records_spec : forall sig name value s txts cached t,
  sig_from_str (env_pre E) idna s = Val (Ok sig) -> field_name name ->
  vt_header_name t = Some name -> vt_header_value t = Some value ->
  Forall2 cache_ok txts cached -> txts <> [] ->
  exists r e cached', try_records E t sig headers config cached = Val (with_outcome t r e, cached')
    /\ records_outcome E headers config sig name value txts r e /\ Forall2 cache_ok txts cached'.
Proof using headers_ok.
  intros sig name value s txts cached t Hs Hn Tn Tv F. revert t Tn Tv. induction F as [|txt c txts cached Hc F IH]; intros t Tn Tv NE; [congruence|].
  cbn [try_records]. destruct (parse_and_cache_spec _ _ Hc) as (kr & -> & P). cbn [bind].
  assert (cache_ok txt (Parsed kr)) as Hc' by (right; eauto).
  assert (forall r e, record_outcome E headers config sig name value txt r (Some e) ->
    exists r' e' cached', bind (try_records E (set_outcome t (Failed e) r) sig headers config cached) (fun x => let (t, cs) := x in Val (t, Parsed kr :: cs))
       = Val (with_outcome t r' e', cached')
    /\ records_outcome E headers config sig name value (txt :: txts) r' e' /\ Forall2 cache_ok (txt :: txts) cached') as Cont.
  { intros r e Ho. destruct txts as [|txt2 more] eqn:Et.
    - inversion F; subst. cbn [try_records bind]. exists r, (Some e), [Parsed kr]. split; [reflexivity|]. split; [apply rs_last; exact Ho|]. constructor; [exact Hc'|constructor].
    - destruct (IH (set_outcome t (Failed e) r) Tn Tv ltac:(discriminate)) as (r' & e' & cached' & H1 & H2 & H3). rewrite H1. cbn [bind].
      exists r', e', (Parsed kr :: cached'). split; [reflexivity|]. split; [eapply rs_more; [discriminate|exact Ho|exact H2]|]. constructor; assumption. }
  destruct kr as [kr|e].
  - assert (exists s0, record_text txt (Some s0) /\ record_from_str (env_pre E) s0 = Val (Ok kr)) as (s0 & R0 & P0) by (destruct P as [[_ X]|X]; [discriminate|exact X]).
    destruct (record_checks s sig name value kr Hs Hn) as (v & V & FO). rewrite V. cbn [bind]. unfold after_validation in FO.
    assert (forall e, first_of (key_checks E headers config sig name value kr) e -> record_outcome E headers config sig name value txt (Some kr) e) as RO by (intros; eapply ro_record; eassumption).
    destruct v as [e|]; [apply Cont; apply RO; exact FO|].
    destruct (read_verifying_key E _ _) as [key|e]; [|apply Cont; apply RO; exact FO].
    destruct (validate_verifying_key E key config) as [e|]; [apply Cont; apply RO; exact FO|].
    rewrite Tn, Tv. destruct (perform_verification E headers key sig name value) as [e|]; [apply Cont; apply RO; exact FO|].
    exists (Some kr), None. eexists. split; [reflexivity|]. split; [apply rs_success; apply RO; exact FO|]. constructor; assumption.
  - apply Cont. destruct P as [[R X]|(s0 & R & X)].
    + injection X as ->. apply ro_not_text. exact R.
    + eapply ro_format; eassumption.
Qed.

(** ** Answers *)

Notation Answer := (IoResult (list (IoResult (list byte)))).

Definition lookup_of (q : Answer) : QueryResult :=
  match q with Err e => Err e | Ok txts => Ok (select_txts 0 None txts) end.

Inductive records_ok : Answer -> result (list CachedRecord) VerificationError -> Prop :=
| ok_err : forall k e, lookup_error k e -> records_ok (Err k) (Err e)
| ok_none : records_ok (Ok []) (Err NoKeyFound)
| ok_some : forall txts cached, txts <> [] -> Forall2 cache_ok (consulted txts) cached -> records_ok (Ok txts) (Ok cached).

Lemma list_eq_dec_nil : forall A (l : list A), {l = []} + {l <> []}.
Proof. intros A [|a l]; [left; reflexivity|right; discriminate]. Qed.

Lemma map_lookup_ok : forall q, records_ok q (map_lookup_result (lookup_of q)).
Proof.
  intros [txts|k]; cbn [lookup_of].
  - rewrite select_consulted. destruct (list_eq_dec_nil _ txts) as [->|NE]; [constructor|].
    assert (consulted txts <> []) as N by (rewrite consulted_nil; exact NE).
    destruct (consulted txts) as [|c cs] eqn:Ec; [congruence|]. cbn [map map_lookup_result].
    apply ok_some; [exact NE|]. rewrite Ec. clear. constructor; [left; reflexivity|].
    induction cs; constructor; [left; reflexivity|assumption].
  - cbn [map_lookup_result]. constructor. destruct k; constructor; discriminate.
Qed.

(** a task after the answer to its lookup *)
Inductive resolved (q : Answer) (t : VerifyTask) : VerifyTask -> Prop :=
| rv_err : forall k e, q = Err k -> lookup_error k e -> resolved q t (set_outcome t (Failed e) None)
| rv_none : q = Ok [] -> resolved q t (set_outcome t (Failed NoKeyFound) None)
| rv_some : forall txts name value sig r e, q = Ok txts -> pending E t name value sig ->
    records_outcome E headers config sig name value (consulted txts) r e ->
    resolved q t (with_outcome t r e).

Lemma verify_task_spec : forall q records t name value sig, pending E t name value sig -> records_ok q records ->
  exists t' records', verify_task E t headers config records = Val (t', records') /\ resolved q t t' /\ records_ok q records'.
Proof using headers_ok.
  intros q records t name value sig P R. pose proof P as (Et & Hn & Hs). unfold verify_task.
  assert (vt_signature t = Some sig) as -> by (rewrite Et; reflexivity).
  assert (vt_key_record t = None) as Kn by (rewrite Et; reflexivity).
  destruct R as [k e L| |txts cached N F].
  - rewrite Kn. eexists _, _. split; [reflexivity|]. split; [econstructor; eauto|constructor; exact L].
  - rewrite Kn. eexists _, _. split; [reflexivity|]. split; [apply rv_none; reflexivity|constructor].
  - assert (consulted txts <> []) as N' by (rewrite consulted_nil; exact N).
    assert (is_nil cached = false) as -> by (destruct F; [congruence|reflexivity]).
    destruct (try_records_spec sig name value value (consulted txts) cached t Hs Hn) as (r & e & cached' & -> & O & F'); auto.
    1-2: rewrite Et; reflexivity. cbn [bind]. eexists _, _. split; [reflexivity|]. split; [eapply rv_some; eauto|]. constructor; assumption.
Qed.

Definition is_pending (t : VerifyTask) : Prop := exists name value sig, pending E t name value sig.

Lemma verify_selected_spec : forall q indexes tasks records, records_ok q records ->
  Forall (fun t => In (vt_index t) indexes -> is_pending t) tasks ->
  exists tasks', verify_selected E headers config indexes records tasks = Val tasks'
    /\ Forall2 (fun t t' => (In (vt_index t) indexes /\ resolved q t t') \/ (~ In (vt_index t) indexes /\ t' = t)) tasks tasks'.
Proof using headers_ok.
  intros q indexes. induction tasks as [|t ts IH]; intros records R F; cbn [verify_selected].
  - exists []. split; [reflexivity|constructor].
  - inversion F as [|? ? F1 F2]; subst. destruct (mem_nat (vt_index t) indexes) eqn:M.
    + apply mem_nat_In in M. destruct (F1 M) as (name & value & sig & P).
      destruct (verify_task_spec q records t name value sig P R) as (t' & records' & -> & V & R'). cbn [bind].
      destruct (IH records' R' F2) as (ts' & -> & F'). cbn [bind]. eexists. split; [reflexivity|]. constructor; auto.
    + assert (~ In (vt_index t) indexes) as M'. { intros X. apply mem_nat_In in X. congruence. }
      destruct (IH records R F2) as (ts' & -> & F'). cbn [bind]. eexists. split; [reflexivity|]. constructor; auto.
Qed.

Lemma resolved_index : forall q t t', resolved q t t' -> vt_index t' = vt_index t.
Proof. intros q t t' H. destruct H; reflexivity. Qed.

Lemma Forall2_compose : forall A B D (P : A -> B -> Prop) (Q : B -> D -> Prop) a b d, Forall2 P a b -> Forall2 Q b d ->
  Forall2 (fun x z => exists y, In y b /\ P x y /\ Q y z) a d.
Proof.
  intros A B D P Q a b d H. revert d. induction H as [|x y a b H0 H IH]; intros d K; inversion K; subst; constructor.
  - exists y. split; [left; reflexivity|]. auto.
  - specialize (IH _ H5). clear - IH. induction IH as [|? ? ? ? (y' & ? & ?)]; constructor; auto. exists y'. split; [right; assumption|assumption].
Qed.

Lemma Forall2_imp : forall A B (P Q : A -> B -> Prop) a b, (forall x y, In x a -> In y b -> P x y -> Q x y) -> Forall2 P a b -> Forall2 Q a b.
Proof. intros A B P Q a b H F. induction F; constructor; [apply H; [left; reflexivity|left; reflexivity|assumption]|]. apply IHF. intros; apply H; [right|right|]; assumption. Qed.

Lemma Forall2_Forall_r : forall A B (P : A -> B -> Prop) (Q : B -> Prop) a b, (forall x y, In x a -> P x y -> Q y) -> Forall2 P a b -> Forall Q b.
Proof. intros A B P Q a b H F. induction F; constructor; [eapply H; [left; reflexivity|eassumption]|]. apply IHF. intros; eapply H; [right; eassumption|eassumption]. Qed.

Lemma process_results_spec : forall (gs : list (list nat * Answer)) tasks,
  NoDup (flat_map fst gs) ->
  Forall (fun t => In (vt_index t) (flat_map fst gs) -> is_pending t) tasks ->
  exists tasks', process_results E headers config (map (fun g => (fst g, lookup_of (snd g))) gs) tasks = Val tasks'
    /\ Forall2 (fun t t' => (exists is q, In (is, q) gs /\ In (vt_index t) is /\ resolved q t t')
                         \/ (~ In (vt_index t) (flat_map fst gs) /\ t' = t)) tasks tasks'.
Proof using headers_ok.
  induction gs as [|[is q] gs IH]; intros tasks ND F; cbn [map process_results fst snd flat_map] in *.
  - exists tasks. split; [reflexivity|]. clear. induction tasks; constructor; auto.
  - destruct (verify_selected_spec q is tasks (map_lookup_result (lookup_of q)) (map_lookup_ok q)) as (t1 & -> & F1).
    { eapply Forall_impl; [|exact F]. intros t H X. apply H. apply in_app_iff. auto. }
    cbn [bind]. destruct (IH t1) as (t2 & H2 & F2).
    { clear - ND. induction is; [exact ND|]. inversion ND; auto. }
    { eapply Forall2_Forall_r; [|exact F1]. cbn beta. intros t t' Ht [[I R]|[I ->]] X.
      - exfalso. rewrite (resolved_index _ _ _ R) in X. clear - ND I X.
        induction is as [|a is IH]; [destruct I|]. cbn [app] in ND. inversion ND; subst. destruct I as [->|I]; [|auto].
        apply H1. apply in_app_iff. auto.
      - rewrite Forall_forall in F. apply (F t Ht). apply in_app_iff. auto. }
    exists t2. split; [exact H2|]. pose proof (Forall2_compose _ _ _ _ _ _ _ _ F1 F2) as F3. revert F3. apply Forall2_imp.
    intros t t' _ _ (t0 & _ & [[I R]|[I ->]] & K).
    + left. exists is, q. split; [left; reflexivity|]. split; [exact I|].
      destruct K as [(is' & q' & K1 & K2 & _)|[K ->]]; [|exact R]. exfalso. rewrite (resolved_index _ _ _ R) in K2.
      clear - ND I K1 K2. induction is as [|a is IH]; [destruct I|]. cbn [app] in ND. inversion ND; subst. destruct I as [->|I]; [|auto].
      apply H1. apply in_app_iff. right. apply in_flat_map. exists (is', q'). auto.
    + destruct K as [(is' & q' & K1 & K2 & K3)|[K ->]]; [left; exists is', q'; split; [right; exact K1|]; auto|]. right. split; [|reflexivity]. rewrite in_app_iff. tauto.
Qed.

End WithEnv.
