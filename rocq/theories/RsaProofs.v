(** Proofs: with the concrete cryptography of Concrete.v, RSA signatures verify. *)

From Coq Require Import String List Permutation Lia ZArith NArith.
From Verif Require Import Base Utf8 Base64 Canon BodyHash Header Domain Signature KeyRecord Crypto Format Sign Verify Pem Programs
  SpecText SpecCanon SpecHash SpecHeader SpecTag SpecDomain SpecSig SpecRecord SpecFormat SpecSign SpecOutput SpecVerify SpecEnd SpecDkim SpecCause
  SpecPrograms SpecRsa Concrete Lib Base64Proofs SignProofs EndProofs CauseProofs ProgramsProofs NumberProofs ConcreteProofs.
Import ListNotations.
Open Scope N_scope.

(** ** DER *)

Lemma firstn_app_all : forall A (a b : list A), firstn (length a) (a ++ b) = a.
Proof. intros A a b. rewrite firstn_app, firstn_all, Nat.sub_diag. cbn. apply app_nil_r. Qed.

Lemma skipn_app_all : forall A (a b : list A), skipn (length a) (a ++ b) = b.
Proof. intros A a b. rewrite skipn_app, skipn_all, Nat.sub_diag. reflexivity. Qed.

Lemma take_read : forall (c rest : list byte),
  (if N.of_nat (length (c ++ rest)) <? N.of_nat (length c) then None
   else Some (firstn (N.to_nat (N.of_nat (length c))) (c ++ rest), skipn (N.to_nat (N.of_nat (length c))) (c ++ rest))) = Some (c, rest).
Proof.
  intros c rest. rewrite app_length. replace (N.of_nat (length c + length rest) <? N.of_nat (length c)) with false by (symmetry; apply N.ltb_ge; lia).
  rewrite Nat2N.id, firstn_app_all, skipn_app_all. reflexivity.
Qed.

Lemma der_read : forall tag c bs rest, der_element tag c bs -> der tag (bs ++ rest) = Some (c, rest).
Proof.
  intros tag c bs rest [H|l H B L1 L2].
  - cbn [app der der_size]. rewrite N.eqb_refl. replace (N.of_nat (length c) <? 128) with true by (symmetry; apply N.ltb_lt; lia).
    apply take_read.
  - cbn [app der der_size]. rewrite N.eqb_refl. replace (128 + N.of_nat (length l) <? 128) with false by (symmetry; apply N.ltb_ge; lia).
    cbv zeta. replace (N.to_nat (128 + N.of_nat (length l) - 128)) with (length l) by lia.
    rewrite <- app_assoc, firstn_app_all, skipn_app_all. apply big_endian_from in B. destruct B as (-> & _).
    replace (128 + N.of_nat (length l) <? 255) with true by (symmetry; apply N.ltb_lt; lia).
    replace (Nat.leb (length l) (length (l ++ c ++ rest))) with true by (symmetry; apply Nat.leb_le; rewrite app_length; lia).
    replace (128 <=? N.of_nat (length c)) with true by (symmetry; apply N.leb_le; lia).
    replace (hd 0 (l ++ c ++ rest) =? 0) with false
      by (symmetry; apply N.eqb_neq; destruct l; [destruct (L1 eq_refl)|exact L1]).
    cbn [andb negb]. apply take_read.
Qed.

Lemma der_read_all : forall tag c bs, der_element tag c bs -> der tag bs = Some (c, []).
Proof. intros tag c bs H. rewrite <- (app_nil_r bs). apply der_read. exact H. Qed.

Lemma der_bytes : forall tag c bs, der_element tag c bs -> is_byte tag -> Forall is_byte c -> Forall is_byte bs.
Proof.
  intros tag c bs [H|l H B L1 L2] T F; (constructor; [exact T|]); (constructor; [unfold is_byte; lia|]); [exact F|].
  apply Forall_app. split; [apply (big_endian_from _ _ B)|exact F].
Qed.

Lemma whole_spec : forall c, whole c = true <-> c <> [] /\ hd 0 c < 128 /\ (forall b c', c = 0 :: b :: c' -> 128 <= b).
Proof.
  intros [|b [|c l]]; cbn [whole hd].
  - split; [discriminate|]. intros (X & _). destruct (X eq_refl).
  - rewrite N.ltb_lt. split; [|tauto]. intros X. split; [discriminate|]. split; [exact X|discriminate].
  - rewrite Bool.andb_true_iff, Bool.orb_true_iff, !N.ltb_lt, N.leb_le. split.
    + intros (X & Y). split; [discriminate|]. split; [exact X|]. intros b' c' [= -> -> ->]. destruct Y as [Y|Y]; [lia|exact Y].
    + intros (_ & X & Y). split; [exact X|]. destruct b as [|b]; [|left; lia]. right. apply (Y c l eq_refl).
Qed.

Lemma integer_read : forall n bs rest, der_integer n bs -> der_int (bs ++ rest) = Some (n, rest).
Proof.
  intros n bs rest (c & B & W1 & W2 & W3 & D). unfold der_int. rewrite (der_read _ _ _ _ D).
  replace (whole c) with true by (symmetry; apply whole_spec; auto). apply big_endian_from in B. destruct B as (-> & _). reflexivity.
Qed.

Lemma integer_bytes : forall n bs, der_integer n bs -> Forall is_byte bs.
Proof.
  intros n bs (c & B & _ & _ & _ & D). apply (der_bytes _ _ _ D); [unfold is_byte; lia|apply (big_endian_from _ _ B)].
Qed.

Lemma limits_spec : forall n e, rsa_limits n e = true <-> rsa_accepted n e.
Proof.
  intros n e. unfold rsa_limits, rsa_accepted. rewrite !Bool.andb_true_iff, !N.odd_spec, !N.leb_le, !N.ltb_lt.
  assert (N.size n <= 4096 <-> n < 2 ^ 4096) as ->; [|tauto]. destruct (N.eq_dec n 0) as [->|Z].
  - split; intros _; [|discriminate]. assert (0 <? 2 ^ 4096 = true) as X by (vm_compute; reflexivity). apply N.ltb_lt in X. exact X.
  - rewrite N.size_log2 by exact Z. rewrite N.le_succ_l. symmetry. apply N.log2_lt_pow2. lia.
Qed.

Lemma public_read : forall n e bs, rsa_public_der n e bs -> rsa_accepted n e -> rsa_pkcs1 bs = Some (mkRsaKey n e) /\ rsa_spki bs = None.
Proof.
  intros n e bs (a & b & A & B & D) L. unfold rsa_pkcs1, rsa_spki, spki. rewrite (der_read_all _ _ _ D). split.
  - rewrite (integer_read _ _ b A). pose proof (integer_read _ _ [] B) as X. rewrite app_nil_r in X. rewrite X.
    apply limits_spec in L. rewrite L. reflexivity.
  - destruct A as (c & _ & _ & _ & _ & [H|l H _ _ _]); reflexivity.
Qed.

Lemma info_read : forall n e bs, rsa_info_der n e bs -> rsa_accepted n e -> rsa_spki bs = Some (mkRsaKey n e).
Proof.
  intros n e bs (key & a & b & K & A & B & D) L. unfold rsa_spki, spki. rewrite (der_read_all _ _ _ D), (der_read _ _ _ _ A).
  cbn [app]. rewrite leqb_refl, (der_read_all _ _ _ B). apply public_read; assumption.
Qed.

Lemma private_read : forall n e d bs, rsa_private_der n e d bs ->
  rsa_secret ([6; 9; 42; 134; 72; 134; 247; 13; 1; 1; 1; 5; 0], bs) = Some (mkRsaSecret (mkRsaKey n e) d []).
Proof.
  intros n e d bs (ver & parts & more & F & _ & D). unfold rsa_secret. cbn [fst snd]. rewrite leqb_refl, (der_read_all _ _ _ D). cbn [obind fst].
  inversion F as [|? v ? parts0 V F0]; subst. inversion F0 as [|? a ? parts1 A F1]; subst. inversion F1 as [|? b ? parts2 B F2]; subst.
  inversion F2 as [|? c ? parts3 G F3]; subst. inversion F3; subst. cbn [concat]. rewrite <- !app_assoc. cbn [app].
  rewrite (integer_read _ _ _ V). cbn [obind snd]. rewrite (integer_read _ _ _ A). cbn [obind snd].
  rewrite (integer_read _ _ _ B). cbn [obind snd]. rewrite (integer_read _ _ _ G). reflexivity.
Qed.

Lemma private_info_read : forall n e d bs, rsa_private_info_der n e d bs ->
  obind rsa_secret (private_key_info bs) = Some (mkRsaSecret (mkRsaKey n e) d []).
Proof.
  intros n e d bs (v & a & key & o & V & A & K & O & D). unfold private_key_info. rewrite (der_read_all _ _ _ D). cbn [obind fst].
  rewrite (integer_read _ _ _ V). cbn [obind snd]. rewrite (der_read _ _ _ _ A). cbn [obind fst snd].
  rewrite (der_read_all _ _ _ O). cbn [option_map fst obind]. apply private_read. exact K.
Qed.

Lemma private_info_bytes : forall n e d bs, rsa_private_info_der n e d bs -> Forall is_byte bs.
Proof.
  intros n e d bs (v & a & key & o & V & A & (ver & parts & more & F & Mo & K) & O & D).
  assert (Forall is_byte (concat parts)) as P.
  { revert F. generalize [ver; n; e; d]. clear. intros l F. induction F; [constructor|]. cbn. apply Forall_app.
    split; [eapply integer_bytes; eassumption|assumption]. }
  apply (der_bytes _ _ _ D); [unfold is_byte; lia|]. apply Forall_app. split; [eapply integer_bytes; eassumption|]. apply Forall_app. split.
  - apply (der_bytes _ _ _ A); [unfold is_byte; lia|]. repeat constructor; unfold is_byte; lia.
  - apply (der_bytes _ _ _ O); [unfold is_byte; lia|]. apply (der_bytes _ _ _ K); [unfold is_byte; lia|]. apply Forall_app. auto.
Qed.

(** ** PEM *)


Lemma lines_some : forall s, lines s <> [].
Proof. induction s as [|c s IH]; cbn; [discriminate|]. destruct (lines s); [contradiction|]. destruct (c =? 10); discriminate. Qed.

Lemma lines_break : forall l s, ~ In 10 l -> lines (l ++ 10 :: s) = l :: lines s.
Proof.
  induction l as [|c l IH]; intros s H.
  - cbn [app lines]. destruct (lines s) as [|x ls] eqn:E; [destruct (lines_some s E)|reflexivity].
  - cbn [app lines]. rewrite IH by (intros X; apply H; right; exact X).
    destruct (N.eqb_spec c 10) as [->|_]; [destruct H; left; reflexivity|reflexivity].
Qed.

Lemma lines_breaks : forall ls s, Forall (fun l => ~ In 10 l) ls -> lines (flat_map (fun l => l ++ [10]) ls ++ s) = ls ++ lines s.
Proof.
  induction ls as [|l ls IH]; intros s H; [reflexivity|]. inversion H; subst. cbn [flat_map app].
  rewrite <- !app_assoc. cbn [app]. rewrite lines_break by assumption. rewrite IH by assumption. reflexivity.
Qed.

Lemma between_read : forall a b m, Concrete.between a b (a ++ m ++ b) = Some m.
Proof.
  intros a b m. unfold Concrete.between. rewrite skipn_app_all, !app_length.
  replace (length a + (length m + length b) - length a - length b)%nat with (length m) by lia.
  rewrite firstn_app_all, leqb_refl. reflexivity.
Qed.

Lemma pem_read : forall label bs t, pem_text label bs t -> Forall is_byte bs -> ~ In 10 label ->
  pem_document t = Some (label, bs).
Proof.
  intros label bs t (ls & B & L & ->) F Hl. unfold pem_document.
  assert (forall c, In c (concat ls) -> c <> 10) as Ch.
  { pose proof (encode_base64_spec bs F) as X. rewrite (base64_det _ _ _ B X).
    intros c Hc ->. apply encode_base64_chars in Hc; [lia|exact F]. }
  set (first := lit "-----BEGIN " ++ label ++ lit "-----"). set (last := lit "-----END " ++ label ++ lit "-----").
  assert (~ In 10 first /\ ~ In 10 last) as (N1 & N2).
  { unfold first, last. rewrite !in_app_iff. split; intros [X|[X|X]]; try contradiction; vm_compute in X; intuition discriminate. }
  replace (lit "-----BEGIN " ++ label ++ lit "-----" ++ [10] ++ flat_map (fun l => l ++ [10]) ls ++ lit "-----END " ++ label ++ lit "-----" ++ [10])
    with (first ++ 10 :: flat_map (fun l => l ++ [10]) ls ++ last ++ [10]) by (unfold first, last; rewrite <- !app_assoc; reflexivity).
  rewrite lines_break, lines_breaks; [|apply Forall_forall; intros l Hl' X; apply (Ch 10); [apply in_concat; eauto|reflexivity]|exact N1].
  change (last ++ [10]) with (last ++ 10 :: []). rewrite lines_break by exact N2. cbn [lines].
  assert (filter (fun l => negb (is_nil l)) (first :: ls ++ [last; []]) = first :: ls ++ [last]) as ->.
  { cbn [filter]. change (is_nil first) with false. cbn [negb]. f_equal. rewrite filter_app. cbn [filter]. change (is_nil last) with false. cbn [negb is_nil].
    f_equal. clear - L. induction L as [|l ls H L IH]; [reflexivity|]. cbn [filter]. rewrite IH. destruct l; [cbn in H; lia|reflexivity]. }
  unfold first at 1. rewrite between_read, rev_app_distr. cbn [rev app]. fold last. rewrite leqb_refl, rev_involutive.
  rewrite (base64_det _ _ _ B (encode_base64_spec bs F)), decode_encode_base64 by exact F. reflexivity.
Qed.

Lemma pem_scalar : forall bs t, pem_text (lit "PRIVATE KEY") bs t -> Forall is_byte bs -> Forall is_scalar t.
Proof.
  intros bs t (ls & B & _ & ->) F.
  assert (forall c, In c (concat ls) -> is_scalar c) as Ch.
  { rewrite (base64_det _ _ _ B (encode_base64_spec bs F)). intros c Hc. apply encode_base64_chars in Hc; [unfold is_scalar; lia|exact F]. }
  repeat (apply Forall_app; split); try (apply Forall_forall; intros c X; vm_compute in X; unfold is_scalar; intuition (subst; lia)).
  apply Forall_forall. intros c X. apply in_flat_map in X as (l & Hl & X). apply in_app_iff in X as [X|[<-|[]]]; [|unfold is_scalar; lia].
  apply Ch. apply in_concat. eauto.
Qed.

Lemma pem_key : forall n e d bs t, rsa_private_info_der n e d bs -> pem_text (lit "PRIVATE KEY") bs t ->
  from_pkcs8_pem real_pem t = Ok (SkRsa (C := real_crypto) (mkRsaSecret (mkRsaKey n e) d [])).
Proof.
  intros n e d bs t Inf Pem. pose proof (private_info_bytes _ _ _ _ Inf) as Bs.
  unfold from_pkcs8_pem. cbn [pk_document real_pem pk_label_ok pk_read_info pk_rsa pk_ed25519].
  rewrite (pem_read _ _ _ Pem Bs) by (intros X; vm_compute in X; intuition discriminate). rewrite leqb_refl. cbn [negb].
  pose proof (private_info_read _ _ _ _ Inf) as X. destruct (private_key_info bs) as [i|]; [|discriminate X]. cbn [obind] in X. rewrite X. reflexivity.
Qed.

(** ** Signing and verifying *)

Lemma real_typed : forall pre m idna, crypto_typed (real_env pre m idna).
Proof.
  intros pre m idna. split; [|split].
  - intros [] d; apply flat_be_bytes.
  - intros a k d s H. apply (rsa_sign_size _ _ _ _ H).
  - intros k d. apply ed_sign_with_size.
Qed.

Lemma real_nonempty : crypto_nonempty real_crypto.
Proof.
  split; [|split].
  - intros a d H. pose proof (digest_length a d) as L. rewrite H in L. destruct a; discriminate L.
  - intros a k d s H X. destruct (rsa_sign_size _ _ _ _ H) as (L & _ & F). apply fits_room in F. rewrite X in L. cbn in L. lia.
  - intros k d H. pose proof (proj1 (ed_sign_with_size (fst (expand k)) (snd (expand k)) d)) as L. cbn in H. unfold ed25519_sign in H. rewrite H in L. discriminate L.
Qed.

Lemma real_sizes : signature_sizes real_crypto.
Proof.
  split.
  - intros a k d s H. apply (rsa_sign_size _ _ _ _ H).
  - intros k d. apply ed_sign_with_size.
Qed.

Section Real.
Variables (pre : bool) (m : N) (idna : Idna).
Notation E := (real_env pre m idna).

Lemma long_bytes : forall n e, 2 ^ 1016 <= n -> (128 <= rsa_bytes (mkRsaKey n e))%nat.
Proof.
  intros n e H. destruct (rsa_bytes_bounds (mkRsaKey n e)) as ((_ & U) & _); cbn [rk_n] in *.
  - intros ->. revert H. change (2 ^ 1016 <= 0) with (~ (2 ^ 1016 ?= 0) = Gt). intros H. apply H. vm_compute. reflexivity.
  - destruct (le_lt_dec 128 (rsa_bytes (mkRsaKey n e))) as [X|X]; [exact X|exfalso].
    assert (256 ^ N.of_nat (rsa_bytes (mkRsaKey n e)) <= 256 ^ 127) as Y by (apply N.pow_le_mono_r; lia).
    assert (256 ^ 127 = 2 ^ 1016) as Z by (vm_compute; reflexivity).
    apply (N.lt_irrefl n). eapply N.lt_le_trans; [exact U|]. eapply N.le_trans; [exact Y|]. rewrite Z. exact H.
Qed.

Lemma rsa_signs : forall k a data, 1 <= rk_e (rs_public k) * rs_d k -> (62 <= rsa_bytes (rs_public k))%nat ->
  exists sig, rsa_sign_digest a k (hash_fn real_crypto a data) = Some sig.
Proof.
  intros k a data H L. unfold rsa_sign_digest. destruct (find _ _); [eauto|]. destruct (rs_d k) as [|d]; [lia|].
  cbv zeta. replace (emsa_fits a (rsa_bytes (rs_public k)) (hash_fn real_crypto a data)) with true; [eauto|].
  symmetry. unfold emsa_fits. apply andb_true_intro. split.
  - apply forallb_forall. intros b X. apply N.ltb_lt. destruct (real_typed pre m idna) as (T & _). specialize (T a data).
    rewrite Forall_forall in T. apply T. exact X.
  - rewrite digest_length. destruct a; apply andb_true_intro; (split; [reflexivity|apply Nat.leb_le; lia]).
Qed.

Lemma rsa_in_record : forall kt n e data, kt = Rsa -> rsa_info_der n e data \/ rsa_public_der n e data -> rsa_accepted n e ->
  key_in E kt data (VkRsa (C := real_crypto) (mkRsaKey n e)).
Proof.
  intros kt n e data -> [H|H] Acc.
  - apply ki_spki. apply info_read; assumption.
  - destruct (public_read _ _ _ H Acc) as (A & B). apply ki_pkcs1; assumption.
Qed.

Lemma rsa_key_published : forall (r : SignRequest E) config zone n e d known,
  rsa_pair n e d -> rsa_accepted n e -> 2 ^ 1016 <= n -> cf_min_key_bits config <= 1024 ->
  r_signing_key E r = SkRsa (C := real_crypto) (mkRsaSecret (mkRsaKey n e) d known) -> r_algorithm E r = RsaSha256 -> r_identity E r = None ->
  rsa_published E zone (r_domain E r) (r_selector E r) n e ->
  key_published E r config (fun p => zone (key_name p)).
Proof.
  intros r config zone n e d known P Acc L Cf Hk Ha Hi (dn & sn & txts & txt & k & H1 & H2 & H3 & H4 & H5 & H6 & H7 & H8).
  exists dn, sn, txts, txt. split; [exact H1|]. split; [exact H2|]. split; [exact H3|]. split; [exact H4|].
  apply record_reads_iff in H5 as (s & A & B). exists s, k, (VkRsa (C := real_crypto) (mkRsaKey n e)).
  split; [exact A|]. split; [exact B|]. rewrite Ha. split; [exact H6|]. split.
  { intros X. rewrite X in H8. destruct H8 as [(? & ? & ? & _ & _ & _ & X')|(? & ? & _ & _ & X')]; inversion X'. }
  split; [exact H7|]. split; [intros _ i X; rewrite Hi in X; discriminate X|]. split; [apply rsa_in_record; assumption|].
  split.
  - intros pk X. injection X as <-. pose proof (long_bytes n e L). cbn [rsa_size env_crypto real_env real_crypto env_pre].
    destruct pre; lia.
  - rewrite Hk. intros a digest sig X. cbn [verifies rsa_verify env_crypto real_env real_crypto]. 
    apply (rsa_confirms (mkRsaSecret (mkRsaKey n e) d known)); [exact P|exact X].
Qed.

Lemma rsa_signing : forall order headers (r : SignRequest E) chunks clock n e d known,
  rsa_pair n e d -> rsa_accepted n e -> 2 ^ 1016 <= n ->
  r_signing_key E r = SkRsa (C := real_crypto) (mkRsaSecret (mkRsaKey n e) d known) -> r_body_length E r = NoLimit ->
  request_typed E r -> first_of (request_checks E r) None -> (forall l, Permutation (order l) l) ->
  header_fields headers -> (exists f, In f headers /\ same_name (fst f) (lit "From")) ->
  exists o, sign_message E order headers [r] chunks clock = Val (Ok [Ok o]) /\ signed_output E headers chunks clock 0 r o.
Proof.
  intros order headers r chunks clock n e d known P Acc L Hk Hb T F O H From.
  destruct (signing_spec E order headers [r] chunks clock (real_typed pre m idna) (Forall_cons _ T (Forall_nil _)) H O) as (x & X & Y).
  assert (x = None) as ->.
  { eapply first_of_det; [exact X|]. apply checks_none. split; [exact From|]. split; [cbn; lia|]. constructor; [exact F|constructor]. }
  destruct Y as (results & Y & Len & R). destruct results as [|res [|]]; try discriminate Len.
  specialize (R 0%nat r res eq_refl eq_refl).
  assert (exists o, res = Ok o) as (o & ->).
  { inversion R; subst; [congruence|match goal with H : signed_body _ _ _ _ _ |- _ => inversion H; congruence end| |eauto].
    match goal with H : primitive_sign _ _ _ _ = None |- _ => rename H into PS end. rewrite Hk in PS. cbn [primitive_sign] in PS.
    match goal with H : to_sign _ _ _ _ _ _ |- _ => destruct H as (? & ? & ? & ? & _ & _ & _ & ->) end.
    cbn [u_algorithm header_digest] in PS. destruct P as (ps & _ & _ & Pos & _).
    edestruct (rsa_signs (mkRsaSecret (mkRsaKey n e) d known)) as (sig & S); [exact Pos|pose proof (long_bytes n e L); cbn [rs_public]; lia|].
    unfold header_digest in PS. cbn [u_algorithm] in PS. cbn [env_crypto real_env real_crypto rsa_sign hash_fn] in PS, S. rewrite S in PS. discriminate PS. }
  exists o. split; [exact Y|]. split; [apply real_typed|]. split; [exact H|].
  exists order, [r], [Ok o]. split; [constructor; [exact T|constructor]|]. auto.
Qed.

Lemma request_new_typed : forall d s alg (key : SigningKey real_crypto), domain_text idna d true -> domain_text idna s false ->
  request_typed E (request_new E d s alg key).
Proof. intros d s alg key Hd Hs. split; [exact Hd|]. split; [exact Hs|]. split; [discriminate|]. split; [discriminate|exact I]. Qed.

Lemma request_new_fine : forall d s (k : RsaSecret), first_of (request_checks E (request_new E d s RsaSha256 (SkRsa (C := real_crypto) k))) None.
Proof.
  intros d s k. apply first_of_none_iff. unfold request_checks.
  cbn [request_new r_signing_key r_algorithm r_header_selection r_identity r_valid_duration r_ext_tags r_format r_body_length].
  repeat constructor; cbn [fst]; try (intros (x & X); discriminate X); try (intros (x & y & X & _); discriminate X); try (intros (x & X & _); discriminate X); try discriminate.
  - cbn; tauto.
  - intros X. apply X. split; [constructor|]. intros n v [].
  - intros X. apply X. vm_compute. reflexivity.
  - intros X. apply X. split; [|discriminate]. cbn. constructor; [auto|constructor].
Qed.

Theorem real_end_to_end : forall order w n e d known dom sel headers chunks chunks' clock zone,
  idna_ok idna -> rsa_pair n e d -> rsa_accepted n e -> 2 ^ 1016 <= n ->
  domain_text idna dom true -> domain_text idna sel false -> Forall is_scalar dom -> Forall is_scalar sel ->
  (forall l, Permutation (order l) l) -> header_fields headers -> (exists f, In f headers /\ same_name (fst f) (lit "From")) ->
  world_ok w -> steady (w_resolver w) zone -> rsa_published E zone dom sel n e ->
  concat chunks' = concat chunks ->
  let signed := clock 0%nat in let now := w_clock w 0 in
  signed < 2^64 - 1 -> signed <= now + 300 -> now < signed + 432000 + 300 -> now < 2^64 - 1 ->
  let key := SkRsa (C := real_crypto) (mkRsaSecret (mkRsaKey n e) d known) in
  exists o, sign_message E order headers [request_new E dom sel RsaSha256 key] chunks clock = Val (Ok [Ok o])
    /\ exists res rest, verify_message E w (signature_field o :: headers) default_config chunks' = Val (Some (res :: rest))
         /\ vr_index res = 0%nat /\ vr_status res = Success.
Proof.
  intros order w n e d known dom sel headers chunks chunks' clock zone Io P Acc L Hd Hs Sd Ss O H From W S Pub B signed now T1 T2 T3 T4 key.
  destruct (rsa_signing order headers (request_new E dom sel RsaSha256 key) chunks clock n e d known P Acc L) as (o & Sg & So); try reflexivity; try assumption.
  - apply request_new_typed; assumption.
  - apply request_new_fine.
  - exists o. split; [exact Sg|]. apply (fresh_end_to_end E w dom sel RsaSha256 key headers chunks chunks' clock 0 o zone Io real_nonempty Sd Ss ltac:(discriminate) So W S); try assumption.
    eapply (rsa_key_published (request_new E dom sel RsaSha256 key)); try eassumption; try reflexivity.
Qed.

Theorem real_programs : forall order clock files w zone show program program' key_file dom sel stdin headers body pem bs n e d,
  idna_ok idna -> rsa_pair n e d -> rsa_accepted n e -> 2 ^ 1016 <= n ->
  rsa_private_info_der n e d bs -> pem_text (lit "PRIVATE KEY") bs pem -> files key_file = Some (as_bytes pem) ->
  domain_text idna dom true -> domain_text idna sel false -> Forall is_scalar dom -> Forall is_scalar sel ->
  message_input stdin headers body -> (exists f, In f headers /\ same_name (fst f) (lit "From")) ->
  (forall l, Permutation (order l) l) -> clock 0%nat < 2^64 ->
  world_ok w -> steady (w_resolver w) zone -> rsa_published E zone dom sel n e ->
  exists out, dkimsign E real_pem files order clock [program; key_file; dom; sel] stdin = Val (mkExit 0 out [])
    /\ exists r rest t, dkimverify E show w [program'] (as_bytes out ++ stdin) = Val (mkExit 0 t [])
         /\ listing show 1 (r :: rest) t /\ vr_status r = Success.
Proof.
  intros order clock files w zone show program program' key_file dom sel stdin headers body pem bs n e d Io P Acc L Inf Pem Fl Hd Hs Sd Ss M From O Ck W S Pub.
  set (key := SkRsa (C := real_crypto) (mkRsaSecret (mkRsaKey n e) d [])).
  pose proof (private_info_bytes _ _ _ _ Inf) as Bs.
  assert (can_sign E real_pem files key_file dom sel stdin key headers body) as Can.
  { split; [|auto]. exists pem. split; [exact Fl|]. split; [eapply pem_scalar; eassumption|].
    eapply pem_key; eassumption. }
  destruct (dkimsign_spec E real_pem files order clock program key_file dom sel stdin (real_typed pre m idna) Io O Sd Ss) as (D & _).
  destruct (D key headers body Can) as [(o & out & Run & So & Pr)|(_ & Bad)].
  - exists out. split; [exact Run|].
    assert (signed_times E zone stdin 1 (as_bytes out ++ stdin)) as St.
    { eapply (st_more E zone stdin 0 stdin real_pem files order clock program key_file dom sel out [] key headers body); [apply st_none|assumption..| | |exact Can|]; [exact Run| |].
      - destruct Pr as (v & _ & ->). destruct (so_header_name o); discriminate.
      - eapply (rsa_key_published (request_for E dom sel key)); try eassumption; try reflexivity. }
    destruct (programs_together E (real_typed pre m idna) Io zone show w program' stdin 1 _ real_nonempty W S St) as (rs & rest & t & V & Li & Len & Su); [lia|].
    destruct rs as [|r [|]]; try discriminate Len. exists r, rest, t. inversion Su; subst. auto.
  - exfalso. inversion Bad; subst. match goal with H : primitive_sign _ _ _ _ = None |- _ => rename H into PS end.
    match goal with H : to_sign _ _ _ _ _ _ |- _ => destruct H as (? & ? & ? & ? & _ & _ & _ & ->) end.
    destruct P as (ps & _ & _ & Pos & _).
    edestruct (rsa_signs (mkRsaSecret (mkRsaKey n e) d [])) as (sig & X); [exact Pos|pose proof (long_bytes n e L); cbn [rs_public]; lia|].
    unfold key in PS. cbn [request_for r_signing_key primitive_sign] in PS. unfold header_digest in PS.
    cbn [u_algorithm request_for r_algorithm algorithm_for alg_hash env_crypto real_env] in PS.
    change (rsa_sign real_crypto) with rsa_sign_digest in PS. rewrite X in PS. discriminate PS.
Qed.

End Real.
