(** Proofs: which changes to a message leave a signature valid. *)

From Coq Require Import String List Lia NArith.
From Verif Require Import Base Utf8 Canon BodyHash Header Domain Signature KeyRecord Crypto TagList Format Sign Verify
  SpecText SpecCanon SpecHash SpecHeader SpecTag SpecDomain SpecSig SpecRecord SpecFormat SpecSign SpecOutput SpecVerify SpecEnd SpecDkim SpecCause SpecRsa SpecEd SpecReal SpecUnique
  SpecTransit SpecAuthor SpecChange
  Concrete Utf8Proofs HeaderCanonProofs SigProofs SignProofs VerifyProofs VerifyFacts EndProofs DkimProofs ConcreteProofs RealProofs TransitProofs UniqueProofs UniqueEnd AuthorProofs EdAnyProofs Lib.
Import ListNotations.
Open Scope N_scope.

(** ** Header fields *)

Lemma nth_firstn : forall (A : Type) (l : list A) j k, (j < k)%nat -> nth_error (firstn k l) j = nth_error l j.
Proof. intros A. induction l as [|x l IH]; intros [|j] [|k] H; cbn; try reflexivity; try lia. apply IH. lia. Qed.

Lemma lowest_contributed : forall alg headers headers' names before,
  (forall n, let k := occurrences n (before ++ names) in Forall2 (same_field alg) (lowest k n headers) (lowest k n headers')) ->
  map (canonical_field alg) (contributed headers before names) = map (canonical_field alg) (contributed headers' before names).
Proof.
  intros alg headers headers' names. induction names as [|n names IH]; intros before H; [reflexivity|].
  cbn [contributed]. rewrite !map_app. rewrite (IH (before ++ [n])) by (intros m; rewrite <- app_assoc; apply H). f_equal.
  assert (occurrences n before < occurrences n (before ++ n :: names))%nat as L.
  { unfold occurrences. rewrite filter_app, app_length. cbn [filter]. rewrite (proj2 (same_nameb_iff n n) eq_refl). cbn [length]. lia. }
  pose proof (Forall2_nth _ _ _ _ _ (H n) (occurrences n before)) as X. unfold lowest in X. rewrite !nth_firstn in X by exact L.
  unfold kth_from_bottom. rewrite Nat.sub_succ, Nat.sub_0_r. fold (named n (rev headers)) (named n (rev headers')).
  destruct (nth_error (named n (rev headers)) _), (nth_error (named n (rev headers')) _); try contradiction; [|reflexivity].
  cbn [map]. f_equal. apply same_field_canonical. exact X.
Qed.

Lemma own_field : forall alg name name' v, match alg with Simple => name = name' | Relaxed => same_name name name' end ->
  canonical_field alg (name, v) = canonical_field alg (name', v).
Proof. intros [] name name' v H; [rewrite H; reflexivity|]. apply same_field_canonical. split; [exact H|reflexivity]. Qed.

Lemma kept_hashed : forall sig name name' headers headers' s, fields_kept sig name name' headers headers' ->
  hashed_header headers sig name s = hashed_header headers' sig name' s.
Proof.
  intros sig name name' headers headers' s (N & F). unfold hashed_header, covered_fields.
  rewrite (lowest_contributed _ headers headers' _ [] F). f_equal. apply own_field. exact N.
Qed.

Lemma filter_none : forall (A : Type) (P : A -> bool) l, (forall x, In x l -> P x = false) -> filter P l = [].
Proof. intros A P l. induction l as [|x l IH]; intros H; [reflexivity|]. cbn [filter]. rewrite (H x (or_introl eq_refl)). apply IH. intros y Iy. apply H. right. exact Iy. Qed.

Section WithEnv.
Variable E : Env.

Lemma digest_hashed : forall headers sig name s,
  signed_digest E headers sig name s = hash_fn (env_crypto E) (alg_hash (s_algorithm sig)) (hashed_header headers sig name s).
Proof. intros headers sig name s. unfold signed_digest, hashed_header, header_hash_input, covered_fields. rewrite map_map. reflexivity. Qed.

(** ** Bodies *)

Lemma matches_covered : forall config sig body, body_matches E config sig body <->
  hash_fn (env_crypto E) (alg_hash (s_algorithm sig)) (covered_body sig body) = s_body_hash sig
  /\ forall l, s_body_length sig = Some l ->
     l <= N.of_nat (length (canonical_body (c_body (s_canonicalization sig)) body))
     /\ (cf_forbid_unsigned_content config = true -> N.of_nat (length (canonical_body (c_body (s_canonicalization sig)) body)) = l).
Proof.
  intros config sig body. unfold body_matches, covered_body. cbv zeta. set (cb := canonical_body _ body). destruct (s_body_length sig) as [l|].
  - split.
    + intros (covered & rest & X & L & H & F). rewrite X, <- L, Nnat.Nat2N.id, firstn_app, Nat.sub_diag, firstn_all. cbn [firstn]. rewrite app_nil_r.
      split; [exact H|]. intros l0 X0. injection X0 as <-. rewrite app_length. split; [lia|]. intros Y. rewrite (F Y). cbn [length]. lia.
    + intros (H & Y). destruct (Y l eq_refl) as (L & F). exists (firstn (N.to_nat l) cb), (skipn (N.to_nat l) cb).
      split; [symmetry; apply firstn_skipn|]. split; [rewrite firstn_length; lia|]. split; [exact H|]. intros Z. apply length_zero_iff_nil. rewrite skipn_length. specialize (F Z). lia.
  - split; [intros H; split; [exact H|discriminate]|intros [H _]; exact H].
Qed.

Lemma same_or_collision : forall h h' a x y, hash_fn (env_crypto E) a x = h -> hash_fn (env_crypto E) a y = h' ->
  (h' = h <-> x = y \/ collision E a x y).
Proof.
  intros h h' a x y <- <-. split.
  - intros H. destruct (list_eq_dec N.eq_dec x y) as [Eq|Ne]; [left; exact Eq|right; split; [exact Ne|symmetry; exact H]].
  - intros [->|[_ H]]; [reflexivity|symmetry; exact H].
Qed.

Lemma kept_matches : forall config sig body body', body_matches E config sig body ->
  (body_matches E config sig body' <-> body_kept E config sig body body').
Proof.
  intros config sig body body' M. apply matches_covered in M as (H & _). rewrite matches_covered.
  pose proof (same_or_collision _ _ _ _ _ H eq_refl : _ = _ <-> covered_body sig body = covered_body sig body' \/ collision E _ (covered_body sig body) (covered_body sig body')) as X.
  rewrite X. clear X H. unfold body_kept, covered_body. cbv zeta. destruct (s_body_length sig) as [l|].
  - split.
    + intros (H & Y). destruct (Y l eq_refl) as (L & F). auto.
    + intros (L & F & H). split; [exact H|]. intros l0 X. injection X as <-. auto.
  - split.
    + intros ([H|H] & _); [left; apply canonical_same_body; exact H|right; exact H].
    + intros [H|H]; (split; [|discriminate]); [left; apply same_body_canonical; exact H|right; exact H].
Qed.

(** ** Results *)

Lemma result_verdict : forall config zone now headers body name value r, result_of E config zone now headers body name value r ->
  exists i, verdict E (fun p => zone (key_name p)) headers config now body i name value r /\ field_name name /\ header_fields headers.
Proof.
  intros config zone now headers body name value r (w & chunks & rs & i & W & Z & F & -> & V & R & <-).
  destruct (evaluation_verdict E _ _ _ _ _ _ _ _ _ _ (steady_evaluation E w headers config chunks zone rs W F Z V) R) as (X & Y & _ & _). exists i. auto.
Qed.

(** there is a result for each field that is examined *)
Lemma result_given : forall config zone w headers chunks k i name value, world_ok w -> steady (w_resolver w) zone -> header_fields headers ->
  nth_error (examined config headers) k = Some (i, (name, value)) -> exists r, result_of E config zone (w_clock w i) headers (concat chunks) name value r.
Proof.
  intros config zone w headers chunks k i name value W Z F K.
  destruct (verify_message_cases E w headers config chunks W F) as [[X _]|(_ & rs & V & L)]; [rewrite X in K; destruct k; discriminate K|].
  assert (exists r, nth_error rs k = Some r) as (r & K').
  { destruct (nth_error rs k) as [r|] eqn:Y; [eauto|]. apply nth_error_None in Y. apply (f_equal (@length _)) in L. rewrite !map_length in L.
    rewrite L in Y. apply nth_error_None in Y. rewrite Y in K. discriminate K. }
  exists r, w, chunks, rs, i. repeat (split; [assumption|]). split; [reflexivity|]. split; [exact V|]. split; [exists k; auto|reflexivity].
Qed.

Lemma kept_on_top : forall sig name f headers, ~ among (fst f) (s_signed_headers sig) -> fields_kept sig name name headers (f :: headers).
Proof.
  intros sig name f headers N. split; [destruct (c_header _); reflexivity|]. intros n k.
  assert (forall l, Forall2 (same_field (c_header (s_canonicalization sig))) l l) as Rf.
  { induction l; constructor; [destruct (c_header _); [reflexivity|split; reflexivity]|assumption]. }
  assert (lowest k n (f :: headers) = lowest k n headers) as ->; [|apply Rf]. unfold lowest. cbn [rev]. unfold named. rewrite filter_app. cbn [filter].
  destruct (same_nameb (fst f) n) eqn:X; [|rewrite app_nil_r; reflexivity]. apply same_nameb_iff in X.
  assert (k = 0)%nat as ->; [|reflexivity]. unfold k, occurrences. apply length_zero_iff_nil. apply filter_none. intros y Iy.
  destruct (same_nameb y n) eqn:Y; [|reflexivity]. apply same_nameb_iff in Y. exfalso. apply N. exists y. split; [exact Iy|]. unfold same_name in *. congruence.
Qed.

Theorem enough : forall config zone now headers headers' body body' name name' value r r' sig s,
  result_of E config zone now headers body name value r -> vr_status r = Success -> vr_signature r = Some sig ->
  result_of E config zone now headers' body' name' value r' -> signature_read E value s (Ok sig) ->
  hash_fn (env_crypto E) (alg_hash (s_algorithm sig)) (hashed_header headers sig name s)
    = hash_fn (env_crypto E) (alg_hash (s_algorithm sig)) (hashed_header headers' sig name' s) ->
  protected_signed config sig headers' -> body_kept E config sig body body' ->
  vr_status r' = Success /\ vr_signature r' = Some sig /\ vr_key_record r' = vr_key_record r.
Proof.
  intros config zone now headers headers' body body' name name' value r r' sig s R S Sg R' SR D P B.
  destruct (result_verdict _ _ _ _ _ _ _ _ R) as (i & V & Fn & F). destruct (result_verdict _ _ _ _ _ _ _ _ R') as (i' & V' & _).
  destruct (verdict_success_record _ _ _ _ _ _ _ _ _ _ V S) as (s0 & sig0 & txt & k & p & txts & SR0 & G & Sg0 & K & _ & _ & _ & _ & BM).
  assert (sig0 = sig) as -> by congruence.
  assert (r' = moved i' r) as ->; [|unfold moved; cbn; auto].
  apply (verdict_det _ _ _ _ _ _ _ _ _ _ _ V'). eapply (verdict_transit E _ headers); [exact SR| | | |exact V].
  - destruct G as (_ & G & _). split; intros (n & In_ & L); exfalso; [specialize (G n In_)|specialize (P n In_)]; lia.
  - rewrite !digest_hashed. exact D.
  - apply (proj2 (body_success E config sig body)) in BM as X. apply (kept_matches _ _ _ _ BM) in B. apply (proj2 (body_success E config sig body')) in B.
    congruence.
Qed.

Theorem body_change : forall config zone now headers body body' name value r r' sig,
  result_of E config zone now headers body name value r -> vr_status r = Success -> vr_signature r = Some sig ->
  result_of E config zone now headers body' name value r' ->
  (vr_status r' = Success <-> body_kept E config sig body body').
Proof.
  intros config zone now headers body body' name value r r' sig R S Sg R'.
  destruct (result_verdict _ _ _ _ _ _ _ _ R) as (i & V & Fn & F). destruct (result_verdict _ _ _ _ _ _ _ _ R') as (i' & V' & _).
  destruct (verdict_success_record _ _ _ _ _ _ _ _ _ _ V S) as (s & sig0 & txt & k & p & txts & SR & G & Sg0 & K & _ & _ & _ & _ & BM).
  assert (sig0 = sig) as -> by congruence. split.
  - intros S'. destruct (verdict_success_record _ _ _ _ _ _ _ _ _ _ V' S') as (s' & sig' & txt' & k' & p' & txts' & SR' & _ & _ & _ & _ & _ & _ & _ & BM').
    destruct (signature_read_det _ _ _ _ _ _ SR SR') as (_ & X). injection X as <-. apply (kept_matches _ _ _ _ BM). exact BM'.
  - intros B. refine (proj1 (enough _ _ _ _ _ _ _ _ _ _ _ _ _ _ R S Sg R' SR eq_refl _ B)). destruct G as (_ & G & _). exact G.
Qed.
End WithEnv.

(** ** With the real cryptography *)

Section Real.
Variables (pre : bool) (m : N) (idna : Idna).
Notation E := (real_env pre m idna).
Notation sha := (hash_fn real_crypto).

Lemma result_verified : forall config zone now headers body name value r sig k, result_of E config zone now headers body name value r ->
  vr_status r = Success -> vr_signature r = Some sig -> vr_key_record r = Some k -> verified_under E config headers body name value sig k.
Proof.
  intros config zone now headers body name value r sig k (w & chunks & rs & i & W & Z & F & B & V & R & _) S Sg K.
  exists w, zone, chunks, rs, i, r. auto 12.
Qed.

Lemma text_hashed : forall headers name value sig data, signed_text E headers name value sig data ->
  exists s, signature_read E value s (Ok sig) /\ data = hashed_header headers sig name s.
Proof.
  intros headers name value sig data (s & tags & Sc & Ev & T & So & D). exists s. split.
  - rewrite Ev. apply sgr_text; [exact Sc|reflexivity|]. apply sig_ok_iff. exists tags. rewrite <- tags_of_iff. auto.
  - apply (signed_data_iff E _ _ _ _ _ _ T So) in D. rewrite D. unfold hashed_header, header_hash_input, covered_fields. rewrite map_map. reflexivity.
Qed.

Lemma text_kept : forall config headers headers' body body' name name' value sig k data data', idna_ok idna ->
  verified_under E config headers body name value sig k -> verified_under E config headers' body' name' value sig k ->
  signed_text E headers name value sig data -> signed_text E headers' name' value sig data' -> data = data' ->
  fields_kept sig name name' headers headers'.
Proof.
  intros config headers headers' body body' name name' value sig k data data' IO W W' D D' Eq. rewrite <- Eq in D'.
  split; [|exact (two_lowest _ _ _ _ _ _ _ _ _ _ _ _ _ _ _ _ _ IO W W' D D')].
  destruct (two_tags _ _ _ _ _ _ _ _ _ _ _ _ _ _ _ _ _ IO W W' D D') as (_ & C).
  destruct (verified_means _ _ _ _ _ _ _ _ _ _ (under_verified _ _ _ _ _ _ _ _ _ _ W) D) as (_ & Fn & _).
  destruct (verified_means _ _ _ _ _ _ _ _ _ _ (under_verified _ _ _ _ _ _ _ _ _ _ W') D') as (_ & Fn' & _).
  destruct (text_hashed _ _ _ _ _ D) as (s & SR & Ed). destruct (text_hashed _ _ _ _ _ D') as (s' & SR' & Ed').
  destruct (signature_read_det _ _ _ _ _ _ SR SR') as (<- & _). rewrite Ed in Ed'. unfold hashed_header in Ed'. rewrite C in Ed'.
  apply app_inv_head in Ed'. apply canonical_name in Ed'; [|apply TamperProofs.name_valid; assumption..]. destruct Ed' as (L & Sf). cbn [fst] in L.
  destruct (c_header (s_canonicalization sig)); [injection Sf as <-; reflexivity|exact L].
Qed.

Lemma kept_text : forall headers headers' name name' value sig data data',
  signed_text E headers name value sig data -> signed_text E headers' name' value sig data' -> fields_kept sig name name' headers headers' -> data = data'.
Proof.
  intros headers headers' name name' value sig data data' D D' Fk.
  destruct (text_hashed _ _ _ _ _ D) as (s & SR & Ed). destruct (text_hashed _ _ _ _ _ D') as (s' & SR' & Ed').
  destruct (signature_read_det _ _ _ _ _ _ SR SR') as (<- & _). rewrite Ed, Ed'. apply kept_hashed. exact Fk.
Qed.

Theorem rsa_change : forall config zone now headers headers' body body' name name' value r r' sig k data data', idna_ok idna ->
  result_of E config zone now headers body name value r -> vr_status r = Success -> vr_signature r = Some sig -> vr_key_record r = Some k ->
  k_key_type k = Rsa -> result_of E config zone now headers' body' name' value r' ->
  signed_text E headers name value sig data -> signed_text E headers' name' value sig data' ->
  (vr_status r' = Success /\ vr_key_record r' = Some k
   <-> protected_signed config sig headers'
       /\ (fields_kept sig name name' headers headers' \/ collision E (alg_hash (s_algorithm sig)) data data')
       /\ body_kept E config sig body body').
Proof.
  intros config zone now headers headers' body body' name name' value r r' sig k data data' IO R S Sg K T R' D D'.
  destruct (text_hashed _ _ _ _ _ D) as (s & SR & Ed). destruct (text_hashed _ _ _ _ _ D') as (s' & SR' & Ed').
  destruct (signature_read_det _ _ _ _ _ _ SR SR') as (<- & _). clear SR'.
  destruct (result_verdict _ _ _ _ _ _ _ _ _ R) as (i & V & Fn & F). destruct (result_verdict _ _ _ _ _ _ _ _ _ R') as (i' & V' & Fn' & F').
  split.
  - intros (S' & K'). destruct (verdict_success_record _ _ _ _ _ _ _ _ _ _ V S) as (s0 & sig0 & _ & _ & _ & _ & _ & G & Sg0 & _ & _ & _ & _ & _ & BM).
    destruct (verdict_success_record _ _ _ _ _ _ _ _ _ _ V' S') as (s1 & sig1 & _ & _ & _ & _ & SR1 & G' & Sg1 & _ & _ & _ & _ & _ & BM').
    destruct (signature_read_det _ _ _ _ _ _ SR SR1) as (_ & X). injection X as <-. assert (sig0 = sig) as -> by congruence.
    split; [destruct G' as (_ & G' & _); exact G'|]. split; [|apply (kept_matches _ _ _ _ _ BM); exact BM'].
    pose proof (result_verified _ _ _ _ _ _ _ _ _ _ R S Sg K) as W. pose proof (result_verified _ _ _ _ _ _ _ _ _ _ R' S' Sg1 K') as W'.
    destruct (stands_rsa _ _ _ _ _ _ _ _ _ _ _ _ _ _ _ _ _ _ W W' D D' eq_refl T) as [Eq|C]; [left|right; exact C].
    exact (text_kept _ _ _ _ _ _ _ _ _ _ _ _ IO W W' D D' Eq).
  - intros (P & Fk & B). destruct (enough E _ _ _ _ _ _ _ _ _ _ _ _ _ _ R S Sg R' SR) as (A1 & _ & A3); [|exact P|exact B|rewrite A3; auto].
    destruct Fk as [Fk|[_ C]]; [rewrite (kept_hashed _ _ _ _ _ _ Fk); reflexivity|]. rewrite <- Ed, <- Ed'. exact C.
Qed.

Lemma one_record_same : forall config zone now headers headers' body body' name name' value r r' sig,
  result_of E config zone now headers body name value r -> vr_status r = Success -> vr_signature r = Some sig -> one_record E zone sig ->
  result_of E config zone now headers' body' name' value r' -> vr_status r' = Success -> vr_key_record r' = vr_key_record r.
Proof.
  intros config zone now headers headers' body body' name name' value r r' sig R S Sg One R' S'.
  destruct (result_verdict _ _ _ _ _ _ _ _ _ R) as (i & V & _). destruct (result_verdict _ _ _ _ _ _ _ _ _ R') as (i' & V' & _).
  destruct (verdict_success_record _ _ _ _ _ _ _ _ _ _ V S) as (s & sig0 & txt & k & p & txts & SR & _ & Sg0 & K & P & A & I & Ac & _).
  destruct (verdict_success_record _ _ _ _ _ _ _ _ _ _ V' S') as (s' & sig1 & txt' & k' & p' & txts' & SR' & _ & Sg1 & K' & P' & A' & I' & Ac' & _).
  assert (sig0 = sig) as -> by congruence. destruct (signature_read_det _ _ _ _ _ _ SR SR') as (_ & X). injection X as <-.
  pose proof (lookup_pair_det _ _ _ _ P P') as <-. destruct (One p P) as (x & Ex). rewrite Ex in A, A'. injection A as <-. injection A' as <-.
  destruct I as [<-|[]]. destruct I' as [<-|[]]. rewrite K, K'. f_equal.
  destruct Ac as (t & key & T1 & T2 & _). destruct Ac' as (t' & key' & T1' & T2' & _). pose proof (record_text_det _ _ _ T1 T1') as X. injection X as <-. congruence.
Qed.

Theorem rsa_change_one : forall config zone now headers headers' body body' name name' value r r' sig data data', idna_ok idna ->
  result_of E config zone now headers body name value r -> vr_status r = Success -> vr_signature r = Some sig -> key_type_for (s_algorithm sig) = Rsa ->
  one_record E zone sig -> result_of E config zone now headers' body' name' value r' ->
  signed_text E headers name value sig data -> signed_text E headers' name' value sig data' ->
  (vr_status r' = Success
   <-> protected_signed config sig headers'
       /\ (fields_kept sig name name' headers headers' \/ collision E (alg_hash (s_algorithm sig)) data data')
       /\ body_kept E config sig body body').
Proof.
  intros config zone now headers headers' body body' name name' value r r' sig data data' IO R S Sg T One R' D D'.
  destruct (result_verdict _ _ _ _ _ _ _ _ _ R) as (i & V & _).
  destruct (verdict_success_record _ _ _ _ _ _ _ _ _ _ V S) as (s & sig0 & txt & k & p & txts & _ & _ & Sg0 & K & _ & _ & _ & (t & key & _ & _ & Kt & _) & _).
  assert (sig0 = sig) as -> by congruence. rewrite T in Kt.
  rewrite <- (rsa_change _ _ _ _ _ _ _ _ _ _ _ _ _ _ _ _ IO R S Sg K Kt R' D D'). split; [intros S'; split; [exact S'|]|intros [S' _]; exact S'].
  rewrite (one_record_same _ _ _ _ _ _ _ _ _ _ _ _ _ R S Sg One R' S'). exact K.
Qed.

(** an Ed25519 key *)
Section Ed.
Variables (config : Config) (zone : str -> IoResult (list (IoResult (list byte)))) (now : N) (headers headers' : list HeaderField) (body body' : list byte)
  (name name' : str) (value : list byte) (r r' : VerificationResult) (sig : DkimSig) (k : KeyRecord) (public : list byte) (a : N * N) (data data' : list byte) (x x' : N).
Hypothesis IO : idna_ok idna.
Hypothesis R : result_of E config zone now headers body name value r.
Hypothesis S : vr_status r = Success.
Hypothesis Sg : vr_signature r = Some sig.
Hypothesis K : vr_key_record r = Some k.
Hypothesis Kp : ed_key_of k public.
Hypothesis En : ed_reading a public.
Hypothesis One : one_record E zone sig.
Hypothesis R' : result_of E config zone now headers' body' name' value r'.
Hypothesis D : signed_text E headers name value sig data.
Hypothesis D' : signed_text E headers' name' value sig data'.

Lemma ed_confirmed : forall headers body name data, verified_under E config headers body name value sig k -> signed_text E headers name value sig data ->
  ed_valid sha512 public (sha (alg_hash (s_algorithm sig)) data) (s_signature_data sig).
Proof.
  intros hs b n dt W T. destruct (verified_means _ _ _ _ _ _ _ _ _ _ (under_verified _ _ _ _ _ _ _ _ _ _ W) T) as (_ & _ & _ & Kb & (least & C)).
  destruct Kp as (Kt & Dp). apply confirms_ed in C; [|exact Kt]. destruct C as (public1 & Dp1 & Va). destruct (valid_readable _ _ _ Va) as (a1 & En1).
  assert (public = public1) as <- by (eapply (ed_key_unique pre m idna); [exact Kb|exact Dp1|exact En1|exact Dp|exact En]). exact Va.
Qed.

Lemma ed_change : vr_status r' = Success
  <-> protected_signed config sig headers' /\ ed_valid sha512 public (sha (alg_hash (s_algorithm sig)) data') (s_signature_data sig)
      /\ body_kept E config sig body body'.
Proof.
  destruct (result_verdict _ _ _ _ _ _ _ _ _ R) as (i & V & _). destruct (result_verdict _ _ _ _ _ _ _ _ _ R') as (i' & V' & _).
  destruct (verdict_success_record _ _ _ _ _ _ _ _ _ _ V S) as (s0 & sig0 & _ & _ & _ & _ & SR & G & Sg0 & _ & _ & _ & _ & _ & BM).
  assert (sig0 = sig) as -> by congruence. split.
  - intros S'. pose proof (one_record_same _ _ _ _ _ _ _ _ _ _ _ _ _ R S Sg One R' S') as K'. rewrite K in K'.
    destruct (verdict_success_record _ _ _ _ _ _ _ _ _ _ V' S') as (s1 & sig1 & _ & _ & _ & _ & SR1 & G' & Sg1 & _ & _ & _ & _ & _ & BM').
    destruct (signature_read_det _ _ _ _ _ _ SR SR1) as (_ & Y). injection Y as <-.
    split; [destruct G' as (_ & G' & _); exact G'|]. split; [|apply (kept_matches _ _ _ _ _ BM); exact BM'].
    exact (ed_confirmed _ _ _ _ (result_verified _ _ _ _ _ _ _ _ _ _ R' S' Sg1 K') D').
  - intros (Pr & Va' & B). apply (kept_matches _ _ _ _ _ BM) in B.
    destruct R as (w & chunks & rs & j & W1 & Z & F & Eb & Vm & Rf & Cl). destruct R' as (w' & chunks' & rs' & j' & W1' & Z' & F' & Eb' & Vm' & Rf' & Cl').
    rewrite Eb' in B.
    destruct (real_success _ _ _ _ _ _ _ _ _ _ _ _ _ W1' Z' F' Vm' Rf') as (Iff & _). apply Iff. clear Iff.
    destruct (real_success _ _ _ _ _ _ _ _ _ _ _ _ _ W1 Z F Vm Rf) as (_ & Va & _). destruct (Va S) as (sig1 & k1 & Sg1 & K1 & Y). clear Va.
    assert (sig1 = sig) as -> by congruence. assert (k1 = k) as -> by congruence. exists sig, k.
    destruct Y as (s & tags & rt & rtags & data1 & rest & A1 & A2 & A3 & A4 & A5 & A6 & A7 & A8 & A9 & A10 & A11 & A12 & _).
    apply matches_covered in B as (Bh & Bl). destruct D' as (s3 & tags3 & D1 & D2 & D3 & D4 & D5). destruct Kp as (Kt & Dp).
    set (cb := canonical_body (c_body (s_canonicalization sig)) (concat chunks')) in *.
    exists s3, tags3, rt, rtags, data', (match s_body_length sig with Some l => skipn (N.to_nat l) cb | None => [] end).
    split; [exact D1|]. split; [exact D2|]. split; [exact D3|]. split; [exact D4|].
    split. { destruct G as (G1 & _ & G3 & G4 & G5 & G6). rewrite Cl'. split; [exact G1|]. split; [exact Pr|]. auto. }
    repeat (split; [assumption|]). split; [rewrite Kt; apply (by_ed25519 _ _ _ _ _ public); assumption|]. split.
    + exists (covered_body sig (concat chunks')). unfold covered_body in *. cbv zeta in *. fold cb in Bh |- *.
      destruct (s_body_length sig) as [l|]; [|split; [symmetry; apply app_nil_r|split; [exact Bh|reflexivity]]].
      destruct (Bl l eq_refl) as (L & _). split; [symmetry; apply firstn_skipn|]. split; [exact Bh|]. rewrite firstn_length. lia.
    + intros Fo. destruct (s_body_length sig) as [l|]; [|reflexivity]. destruct (Bl l eq_refl) as (_ & L). specialize (L Fo).
      apply length_zero_iff_nil. rewrite skipn_length. lia.
Qed.

Theorem ed_change_kept : forall P : Prop,
  (ed_valid sha512 public (sha (alg_hash (s_algorithm sig)) data') (s_signature_data sig) <-> P) ->
  (vr_status r' = Success
   <-> protected_signed config sig headers' /\ (fields_kept sig name name' headers headers' \/ data <> data' /\ P) /\ body_kept E config sig body body').
Proof.
  intros P Pv. rewrite ed_change. pose proof (result_verified _ _ _ _ _ _ _ _ _ _ R S Sg K) as W. split.
  - intros (Pr & Va & B). split; [exact Pr|]. split; [|exact B].
    assert (vr_status r' = Success) as S' by (apply ed_change; auto).
    pose proof (one_record_same _ _ _ _ _ _ _ _ _ _ _ _ _ R S Sg One R' S') as K'. rewrite K in K'.
    assert (vr_signature r' = Some sig) as Sg'.
    { destruct (result_verdict _ _ _ _ _ _ _ _ _ R) as (i & V & _). destruct (result_verdict _ _ _ _ _ _ _ _ _ R') as (i' & V' & _).
      destruct (verdict_success_record _ _ _ _ _ _ _ _ _ _ V S) as (s0 & sig0 & _ & _ & _ & _ & SR & _ & Sg0 & _).
      destruct (verdict_success_record _ _ _ _ _ _ _ _ _ _ V' S') as (s1 & sig1 & _ & _ & _ & _ & SR1 & _ & Sg1 & _).
      destruct (signature_read_det _ _ _ _ _ _ SR SR1) as (_ & Y). injection Y as <-. congruence. }
    destruct (list_eq_dec N.eq_dec data data') as [Eq|Ne]; [left|right; split; [exact Ne|apply Pv; exact Va]].
    exact (text_kept _ _ _ _ _ _ _ _ _ _ _ _ IO W (result_verified _ _ _ _ _ _ _ _ _ _ R' S' Sg' K') D D' Eq).
  - intros (Pr & Fk & B). split; [exact Pr|]. split; [|exact B]. destruct Fk as [Fk|[_ X]]; [|apply Pv; exact X].
    rewrite <- (kept_text _ _ _ _ _ _ _ _ D D' Fk). exact (ed_confirmed _ _ _ _ W D).
Qed.

Hypothesis X : little_endian (sha512 (firstn 32 (s_signature_data sig) ++ public ++ sha (alg_hash (s_algorithm sig)) data)) x.
Hypothesis X' : little_endian (sha512 (firstn 32 (s_signature_data sig) ++ public ++ sha (alg_hash (s_algorithm sig)) data')) x'.

Theorem ed_change_any : forall y, ed_multiple a (x mod ed_order) y ->
  (vr_status r' = Success
   <-> protected_signed config sig headers'
       /\ (fields_kept sig name name' headers headers' \/ data <> data' /\ ed_multiple a (x' mod ed_order) y)
       /\ body_kept E config sig body body').
Proof.
  intros y Y. apply ed_change_kept. pose proof (result_verified _ _ _ _ _ _ _ _ _ _ R S Sg K) as W.
  exact (ed_same_multiple _ _ _ _ _ _ _ _ En (ed_confirmed _ _ _ _ W D) X X' Y).
Qed.

Theorem ed_change_private : forall key, ed_public_key sha512 key public ->
  (vr_status r' = Success
   <-> protected_signed config sig headers'
       /\ (fields_kept sig name name' headers headers' \/ data <> data' /\ x mod ed_order = x' mod ed_order)
       /\ body_kept E config sig body body').
Proof.
  intros key P. apply ed_change_kept. pose proof (result_verified _ _ _ _ _ _ _ _ _ _ R S Sg K) as W.
  exact (ed_same_hash key _ _ _ _ _ _ P (ed_confirmed _ _ _ _ W D) X X').
Qed.
End Ed.
End Real.
