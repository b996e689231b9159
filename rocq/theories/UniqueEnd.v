(** Proofs: signatures of messages cannot be altered; what one signature can stand for. *)

From Coq Require Import String List Lia NArith.
From Verif Require Import Base Utf8 Canon BodyHash Header Domain Signature KeyRecord Crypto TagList Format Sign Verify
  SpecText SpecCanon SpecHash SpecHeader SpecTag SpecDomain SpecSig SpecRecord SpecFormat SpecSign SpecOutput SpecVerify SpecEnd SpecDkim SpecCause SpecRsa SpecEd SpecReal SpecUnique
  Concrete Utf8Proofs TagListProofs SigProofs RecordProofs HeaderCanonProofs OriginalProofs VerifyKeys VerifyFacts EndProofs TamperText TamperProofs DkimProofs ConcreteProofs
  EdSpecProofs RealProofs ShaEndProofs UniqueProofs Lib.
Import ListNotations.
Open Scope N_scope.

Section Real.
Variables (pre : bool) (m : N) (idna : Idna).
Notation E := (real_env pre m idna).
Notation sha := (hash_fn real_crypto).

(** what a verified signature means *)
Lemma verified_means : forall headers body name value sig k data, verified E headers body name value sig k -> signed_text E headers name value sig data ->
  header_fields headers /\ field_name name
  /\ (exists s, Forall is_scalar s /\ value = as_bytes s /\ sig_from_str pre idna s = Val (Ok sig) /\ data = hashed_header headers sig name s)
  /\ Forall is_byte (k_key_data k)
  /\ exists least, key_confirms sha512 least (alg_hash (s_algorithm sig)) (sha (alg_hash (s_algorithm sig)) data) (s_signature_data sig) (k_key_type k) (k_key_data k).
Proof.
  intros headers body name value sig k data (w & zone & config & chunks & rs & i & r & W & Z & F & -> & V & R & S & Sg & K) (s & tags & Sc & Ev & T & So & D).
  split; [exact F|]. split; [eapply result_name; eassumption|].
  assert (data = hashed_header headers sig name s) as Ed.
  { apply (signed_data_iff E _ _ _ _ _ _ T So) in D. rewrite D. unfold hashed_header, header_hash_input, covered_fields. rewrite map_map. reflexivity. }
  split. { exists s. split; [exact Sc|]. split; [exact Ev|]. split; [|exact Ed]. apply sig_ok_iff. exists tags. rewrite <- tags_of_iff. auto. }
  destruct (real_success _ _ _ _ _ _ _ _ _ _ _ _ _ W Z F V R) as (_ & X & _). destruct (X S) as (sig1 & k1 & Sg1 & K1 & Va).
  assert (sig1 = sig) as -> by congruence. assert (k1 = k) as -> by congruence.
  destruct Va as (s1 & tags1 & rt & rtags & data1 & rest & Sc1 & Ev1 & T1 & So1 & _ & _ & _ & _ & Rr & _ & _ & _ & D1 & C & _).
  split. { destruct Rr as (_ & _ & _ & _ & (t & _ & B & _) & _). exact B. }
  rewrite Ev in Ev1. apply as_bytes_inj in Ev1; [|exact Sc|exact Sc1]. subst s1.
  apply (signed_data_iff E _ _ _ _ _ _ T1 So1) in D1. apply (signed_data_iff E _ _ _ _ _ _ T So) in D. rewrite <- D in D1. subst data1.
  eexists. exact C.
Qed.

Lemma rsa_key_unique : forall data n e n' e', Forall is_byte data ->
  rsa_info_der n e data \/ rsa_public_der n e data -> rsa_accepted n e ->
  rsa_info_der n' e' data \/ rsa_public_der n' e' data -> rsa_accepted n' e' -> n' = n /\ e' = e.
Proof.
  intros data n e n' e' B D A D' A'.
  pose proof (proj2 (rsa_key_in pre m idna data (mkRsaKey n e) B) (conj D A)) as X.
  pose proof (proj2 (rsa_key_in pre m idna data (mkRsaKey n' e') B) (conj D' A')) as Y.
  pose proof (key_in_det E _ _ _ _ X Y) as H. injection H as -> ->. auto.
Qed.

Lemma confirms_rsa : forall least a digest sig k n e, rsa_key_of k n e -> Forall is_byte (k_key_data k) ->
  key_confirms sha512 least a digest sig (k_key_type k) (k_key_data k) -> rsa_valid a n e digest sig.
Proof.
  intros least a digest sig k n e (T & D & A) B C. rewrite T in C. inversion C as [n' e' bits data D' A' _ _ V|]; subst.
  destruct (rsa_key_unique _ _ _ _ _ B D A D' A') as (-> & ->). exact V.
Qed.

Lemma ed_key_unique : forall data public public' a a', Forall is_byte data ->
  data = public \/ ed_info_der public data -> ed_reading a public ->
  data = public' \/ ed_info_der public' data -> ed_reading a' public' -> public' = public.
Proof.
  intros data public public' a a' B D A D' A'.
  assert (forall p, data = p \/ ed_info_der p data -> Forall is_byte p) as Bp. { intros p [<-|X]; [exact B|eapply ed_info_bytes; eassumption]. }
  destruct (proj2 (key_readable public (Bp _ D)) (ex_intro _ a A)) as (q & Q).
  destruct (proj2 (key_readable public' (Bp _ D')) (ex_intro _ a' A')) as (q' & Q').
  pose proof (proj2 (ed_key_in pre m idna data q B) (ex_intro _ public (conj D Q))) as X.
  pose proof (proj2 (ed_key_in pre m idna data q' B) (ex_intro _ public' (conj D' Q'))) as Y.
  pose proof (key_in_det E _ _ _ _ X Y) as H. injection H as <-. unfold ed_key in Q, Q'.
  destruct (read_point public), (read_point public'); cbn [option_map] in *; congruence.
Qed.

Lemma valid_readable : forall public msg sig, ed_valid sha512 public msg sig -> exists a, ed_reading a public.
Proof. intros public msg sig (? & ? & ? & a & ? & ? & ? & ? & ? & _ & _ & A & _). exists a. exact A. Qed.

Lemma confirms_ed : forall least a digest sig k, k_key_type k = Ed25519 ->
  key_confirms sha512 least a digest sig (k_key_type k) (k_key_data k) ->
  exists public, (k_key_data k = public \/ ed_info_der public (k_key_data k)) /\ ed_valid sha512 public digest sig.
Proof. intros least a digest sig k T C. rewrite T in C. inversion C as [|public data D V]; subst. exists public. auto. Qed.

(** ** Altering signatures *)

Section Same.
Variables (headers headers' : list HeaderField) (body body' : list byte) (name name' : str) (value value' : list byte)
  (sig sig' : DkimSig) (k : KeyRecord) (data : list byte).
Hypothesis IO : idna_ok idna.
Hypothesis V : verified E headers body name value sig k.
Hypothesis V' : verified E headers' body' name' value' sig' k.
Hypothesis D : signed_text E headers name value sig data.
Hypothesis D' : signed_text E headers' name' value' sig' data.

Lemma same_text : same_tags_of sig sig' /\ covered_fields headers sig = covered_fields headers' sig' /\ same_name name name'.
Proof.
  destruct (verified_means _ _ _ _ _ _ _ V D) as (F & Fn & (s & Sc & _ & P & Ed) & _).
  destruct (verified_means _ _ _ _ _ _ _ V' D') as (F' & Fn' & (s' & Sc' & _ & P' & Ed') & _).
  rewrite Ed in Ed'. exact (same_hashed E _ _ _ _ _ _ _ _ IO F F' Fn Fn' Sc Sc' P P' Ed').
Qed.

Theorem rsa_unaltered : forall n e d, rsa_key_of k n e -> rsa_pair n e d -> s_signature_data sig' = s_signature_data sig.
Proof.
  intros n e d Ke P. destruct same_text as (T & _). assert (s_algorithm sig = s_algorithm sig') as A by apply T.
  destruct (verified_means _ _ _ _ _ _ _ V D) as (_ & _ & _ & B & (least & C)).
  destruct (verified_means _ _ _ _ _ _ _ V' D') as (_ & _ & _ & _ & (least' & C')).
  apply (confirms_rsa _ _ _ _ _ _ _ Ke B) in C, C'. rewrite <- A in C'.
  eapply rsa_one_signature; [exact P|apply digest_length|exact C'|exact C].
Qed.

Theorem ed_unaltered : k_key_type k = Ed25519 -> firstn 32 (s_signature_data sig') = firstn 32 (s_signature_data sig) -> s_signature_data sig' = s_signature_data sig.
Proof.
  intros Kt H. destruct same_text as (T & _). assert (s_algorithm sig = s_algorithm sig') as A by apply T.
  destruct (verified_means _ _ _ _ _ _ _ V D) as (_ & _ & _ & B & (least & C)).
  destruct (verified_means _ _ _ _ _ _ _ V' D') as (_ & _ & _ & _ & (least' & C')).
  apply confirms_ed in C, C'; [|exact Kt..]. destruct C as (public & Dp & Va), C' as (public' & Dp' & Va').
  destruct (valid_readable _ _ _ Va) as (a & En), (valid_readable _ _ _ Va') as (a' & En').
  pose proof (ed_key_unique _ _ _ _ _ B Dp En Dp' En') as ->. rewrite <- A in Va'. eapply ed_one_signature; eassumption.
Qed.
End Same.

(** ** The same message, but for the value of b= *)

Lemma valid_names : forall h, header_fields h -> Forall (fun f => valid_name (fst f)) h.
Proof. intros h Hh. eapply Forall_impl; [|exact Hh]. intros f [X _]. apply name_valid. exact X. Qed.

Lemma field_replaced : forall alg before after name v v' names, header_fields (before ++ (name, v) :: after) -> header_fields (before ++ (name, v') :: after) ->
  (forall n, In n names -> ~ same_name n name) ->
  header_hash_input alg (before ++ (name, v) :: after) names = header_hash_input alg (before ++ (name, v') :: after) names.
Proof.
  intros alg before after name v v' names H H' N. apply valid_names in H, H'.
  assert (forall n, In n names -> same_nameb name n = false) as N'.
  { intros n Hn. destruct (same_nameb name n) eqn:X; [|reflexivity]. apply same_nameb_iff in X. exfalso. apply (N n Hn). unfold same_name in *. symmetry. exact X. }
  assert (Forall (fun f => valid_name (fst f)) (before ++ after)) as H0.
  { apply Forall_app in H. destruct H as [H1 H2]. inversion H2; subst. apply Forall_app. auto. }
  rewrite <- !canonicalize_headers_spec by assumption.
  transitivity (canonicalize_headers alg (before ++ after) names); [symmetry|]; (apply headers_agree; [assumption..|apply agree_unrelated; exact N']).
Qed.

Lemma replaced_text : forall before after name s s' sig sig', idna_ok idna ->
  header_fields (before ++ (name, as_bytes s) :: after) -> header_fields (before ++ (name, as_bytes s') :: after) ->
  Forall is_scalar s -> Forall is_scalar s' -> b_replaced s s' ->
  sig_from_str pre idna s = Val (Ok sig) -> sig_from_str pre idna s' = Val (Ok sig') ->
  (forall n, In n (s_signed_headers sig) -> ~ same_name n name) ->
  exists data, signed_text E (before ++ (name, as_bytes s) :: after) name (as_bytes s) sig data
    /\ signed_text E (before ++ (name, as_bytes s') :: after) name (as_bytes s') sig' data.
Proof.
  intros before after name s s' sig sig' IO F F' Sc Sc' (tags & tags' & v & v' & t & T & T' & G & G' & R & R') P P' N.
  pose proof P as Q. pose proof P' as Q'. apply sig_ok_iff in Q, Q'. destruct Q as (ts & L & So), Q' as (ts' & L' & So').
  pose proof T as T0. pose proof T' as T0'. apply tags_of_iff in T0, T0'. assert (ts = tags) as -> by congruence. assert (ts' = tags') as -> by congruence.
  pose proof (removed_unique _ _ _ _ T0 G R) as Et. pose proof (removed_unique _ _ _ _ T0' G' R') as Et'.
  assert (same_tags_of sig sig') as Sm. { eapply same_signature; [exact IO|exact P|exact P'|]. rewrite <- Et, <- Et'. reflexivity. }
  assert (s_canonicalization sig = s_canonicalization sig' /\ s_signed_headers sig = s_signed_headers sig') as (Ec & Eh) by (split; apply Sm).
  eexists. split.
  - exists s, tags. split; [exact Sc|]. split; [reflexivity|]. split; [exact T|]. split; [exact So|]. exists v, t. auto.
  - exists s', tags'. split; [exact Sc'|]. split; [reflexivity|]. split; [exact T'|]. split; [exact So'|]. exists v', t. split; [exact G'|]. split; [exact R'|].
    rewrite <- Ec, <- Eh. f_equal. apply field_replaced; assumption.
Qed.

Lemma verified_read : forall headers body name s sig k, Forall is_scalar s -> verified E headers body name (as_bytes s) sig k ->
  header_fields headers /\ sig_from_str pre idna s = Val (Ok sig).
Proof.
  intros headers body name s sig k Sc (w & zone & config & chunks & rs & i & r & W & Z & F & -> & V & R & S & Sg & K). split; [exact F|].
  destruct (real_success _ _ _ _ _ _ _ _ _ _ _ _ _ W Z F V R) as (_ & X & _). destruct (X S) as (sig1 & k1 & Sg1 & K1 & Va).
  assert (sig1 = sig) as -> by congruence.
  destruct Va as (s1 & tags1 & rt & rtags & data1 & rest & Sc1 & Ev1 & T1 & So1 & _). apply as_bytes_inj in Ev1; [|exact Sc|exact Sc1]. subst s1.
  apply sig_ok_iff. exists tags1. rewrite <- tags_of_iff. auto.
Qed.

Theorem altered : forall before after body body' name s s' sig sig' k, idna_ok idna -> Forall is_scalar s -> Forall is_scalar s' ->
  verified E (before ++ (name, as_bytes s) :: after) body name (as_bytes s) sig k ->
  verified E (before ++ (name, as_bytes s') :: after) body' name (as_bytes s') sig' k ->
  b_replaced s s' -> (forall n, In n (s_signed_headers sig) -> ~ same_name n name) ->
  ((exists n e d, rsa_key_of k n e /\ rsa_pair n e d) \/ k_key_type k = Ed25519 /\ firstn 32 (s_signature_data sig') = firstn 32 (s_signature_data sig)) ->
  s_signature_data sig' = s_signature_data sig.
Proof.
  intros before after body body' name s s' sig sig' k IO Sc Sc' V V' R N C.
  destruct (verified_read _ _ _ _ _ _ Sc V) as (F & P), (verified_read _ _ _ _ _ _ Sc' V') as (F' & P').
  destruct (replaced_text _ _ _ _ _ _ _ IO F F' Sc Sc' R P P' N) as (data & D & D').
  destruct C as [(n & e & d & Ke & Pa)|(Kt & H)].
  - eapply rsa_unaltered; eassumption.
  - eapply ed_unaltered; eassumption.
Qed.

(** ** One signature, one message *)

Section Other.
Variables (headers headers' : list HeaderField) (body body' : list byte) (name name' : str) (value value' : list byte)
  (sig sig' : DkimSig) (k : KeyRecord) (data data' : list byte).
Hypothesis V : verified E headers body name value sig k.
Hypothesis V' : verified E headers' body' name' value' sig' k.
Hypothesis D : signed_text E headers name value sig data.
Hypothesis D' : signed_text E headers' name' value' sig' data'.
Hypothesis S : s_signature_data sig' = s_signature_data sig.

Theorem rsa_stands_for : k_key_type k = Rsa ->
  alg_hash (s_algorithm sig) = alg_hash (s_algorithm sig') /\ sha (alg_hash (s_algorithm sig)) data = sha (alg_hash (s_algorithm sig')) data'.
Proof.
  intros Kt. destruct (verified_means _ _ _ _ _ _ _ V D) as (_ & _ & _ & B & (least & C)).
  destruct (verified_means _ _ _ _ _ _ _ V' D') as (_ & _ & _ & _ & (least' & C')). rewrite S in C'.
  assert (exists n e, rsa_key_of k n e) as (n & e & Ke).
  { pose proof C as C0. rewrite Kt in C0. inversion C0 as [n e bits d0 D0 A0|]; subst. exists n, e. split; [exact Kt|]. auto. }
  apply (confirms_rsa _ _ _ _ _ _ _ Ke B) in C, C'.
  destruct (rsa_one_digest _ _ _ _ _ _ _ (digest_length _ _) (digest_length _ _) C C') as (A & Dg). auto.
Qed.

Theorem ed_stands_for : forall key public x x', ed_public_key sha512 key public -> ed_key_of k public ->
  little_endian (sha512 (firstn 32 (s_signature_data sig) ++ public ++ sha (alg_hash (s_algorithm sig)) data)) x ->
  little_endian (sha512 (firstn 32 (s_signature_data sig) ++ public ++ sha (alg_hash (s_algorithm sig')) data')) x' ->
  x mod ed_order = x' mod ed_order.
Proof.
  intros key public x x' P (Kt & Dp) X X'. destruct (verified_means _ _ _ _ _ _ _ V D) as (_ & _ & _ & B & (least & C)).
  destruct (verified_means _ _ _ _ _ _ _ V' D') as (_ & _ & _ & _ & (least' & C')). rewrite S in C'.
  assert (exists a, ed_reading a public) as (a & En). { destruct P as (? & ? & ? & a & _ & _ & _ & En). exists a. apply encoding_reading. exact En. }
  apply confirms_ed in C, C'; [|exact Kt..]. destruct C as (public1 & D1 & Va), C' as (public2 & D2 & Va').
  destruct (valid_readable _ _ _ Va) as (a1 & En1), (valid_readable _ _ _ Va') as (a2 & En2).
  pose proof (ed_key_unique _ _ _ _ _ B Dp En D1 En1) as ->. pose proof (ed_key_unique _ _ _ _ _ B Dp En D2 En2) as ->.
  apply (ed_same_hash key public _ _ _ _ _ P Va X X'). exact Va'.
Qed.
End Other.

End Real.
