(** Lemmas for C105: the time of signing and the format. *)

From Coq Require Import String List Permutation.
From Verif Require Import Base Utf8 Canon BodyHash Header Domain Signature Crypto TagList Format Sign
  SpecText SpecCanon SpecHash SpecHeader SpecTag SpecDomain SpecSig SpecFormat SpecSign SpecRestyle
  BodyHashProofs SignProofs RequestProofs CopiedProofs ResignProofs Lib.
Import ListNotations.
Open Scope N_scope.

Section WithEnv.
Variable E : Env.
Notation C := (env_crypto E).

(** ** Time *)

Lemma perform_timeless : forall now now' r headers results, timeless E r ->
  perform_signing E now r headers results = perform_signing E now' r headers results.
Proof.
  intros now now' r headers results T. unfold timeless in T. unfold perform_signing.
  destruct (r_timestamp E r) as [| |t]; [rewrite T; reflexivity|contradiction|reflexivity].
Qed.

Theorem signing_timeless : forall order order' headers rs chunks chunks' clock clock', crypto_typed E ->
  Forall (request_typed E) rs -> header_fields headers ->
  (forall l, Permutation (order l) l) -> (forall l, Permutation (order' l) l) ->
  concat chunks = concat chunks' ->
  (forall j r, nth_error rs j = Some r -> timeless E r \/ clock j = clock' j) ->
  sign_message E order headers rs chunks clock = sign_message E order' headers rs chunks' clock'.
Proof.
  intros order order' headers rs chunks chunks' clock clock' HC T H O O' B TL.
  destruct (signing_spec E order headers rs chunks clock HC T H O) as (e & He & X).
  destruct (signing_spec E order' headers rs chunks' clock' HC T H O') as (e' & He' & X').
  rewrite (first_of_det _ _ _ _ He' He) in X'. destruct e as [e|]; [rewrite X, X'; reflexivity|].
  destruct X as (res & X & L & _), X' as (res' & X' & L' & _). rewrite X, X'. do 2 f_equal.
  destruct (run_each E _ _ _ _ _ _ T O X) as (Ch & _ & N). destruct (run_each E _ _ _ _ _ _ T O' X') as (_ & _ & N').
  apply checks_none in Ch as (_ & _ & Ch). rewrite Forall_forall in Ch, T.
  apply same_nth. intros j. destruct (nth_error rs j) as [r|] eqn:Er.
  - assert (j < length rs)%nat as Lj by (apply nth_error_Some; congruence).
    destruct (nth_error res j) as [x|] eqn:Ex; [|apply nth_error_None in Ex; lia].
    destruct (nth_error res' j) as [x'|] eqn:Ex'; [|apply nth_error_None in Ex'; lia].
    destruct (N _ _ _ Er Ex) as (b & G & P), (N' _ _ _ Er Ex') as (b' & G' & P').
    pose proof (TL _ _ Er) as Q. apply nth_error_In in Er.
    rewrite (perform_same E _ _ _ _ b') in P by (auto; rewrite G, G', B; reflexivity).
    destruct Q as [Q|Q]; [rewrite (perform_timeless _ (clock' j) _ _ _ Q) in P|rewrite Q in P]; congruence.
  - apply nth_error_None in Er. transitivity (@None (result SigningOutput SigningError)); [|symmetry]; apply nth_error_None; lia.
Qed.

(** ** Format and time *)

Lemma signed_body_det : forall r body h l h' l', signed_body E r body h l -> signed_body E r body h' l' -> h = h' /\ l = l'.
Proof.
  intros r body h l h' l' S S'. destruct S as [A|cb A|n a b A La Ea]; destruct S' as [A'|cb' A'|n' a' b' A' La' Ea']; try congruence; auto.
  rewrite A in A'. injection A' as <-. split; [|reflexivity]. rewrite Ea in Ea'.
  assert (length a = length a') as X by lia. apply (f_equal (firstn (length a))) in Ea'.
  rewrite firstn_app, firstn_all, Nat.sub_diag, firstn_O, app_nil_r in Ea'. rewrite X in Ea' at 1.
  rewrite firstn_app, firstn_all, Nat.sub_diag, firstn_O, app_nil_r in Ea'. exact Ea'.
Qed.

Lemma signed_names_det : forall r headers a b, signed_names E r headers a -> signed_names E r headers b -> a = b.
Proof. intros r headers a b A B. rewrite <- (names_model E _ _ _ A). apply (names_model E _ _ _ B). Qed.

Lemma copied_det : forall r headers names a b, copied_headers E r headers names a -> copied_headers E r headers names b -> a = b.
Proof. intros r headers names a b A B. rewrite <- (copied_model E _ _ _ _ A). apply (copied_model E _ _ _ _ B). Qed.

Lemma expiration_same : forall r now, expiration_of E r now
  = match r_valid_duration E r with
    | Some d => Some (N.min (match time_of E r now with Some t => t | None => now end + d) (2^64 - 1))
    | None => None
    end.
Proof.
  intros r now. unfold expiration_of, time_of. destruct (r_valid_duration E r) as [d|]; [|reflexivity]. f_equal.
  destruct (r_timestamp E r); destruct (_ <? _) eqn:X; lia.
Qed.

Lemma body_restyled : forall r f body h l, signed_body E (restyled E r f) body h l <-> signed_body E r body h l.
Proof.
  intros r f body h l. split; intros S; destruct S as [A|cb A|n a b A La Ea];
    [apply (sb_all E r)|apply (sb_content E r)|apply (sb_exact E r _ n a b)|apply (sb_all E (restyled E r f))|apply (sb_content E (restyled E r f))|apply (sb_exact E (restyled E r f) _ n a b)]; assumption.
Qed.

Lemma names_restyled : forall r f headers names, signed_names E (restyled E r f) headers names <-> signed_names E r headers names.
Proof.
  intros r f headers names. split; intros S; destruct S as [fs A S|ns A];
    [apply (sn_auto E r)|apply (sn_manual E r)|apply (sn_auto E (restyled E r f))|apply (sn_manual E (restyled E r f))]; assumption.
Qed.

Lemma result_restyled : forall now now' r f headers body res res',
  signing_result E now r headers body res -> signing_result E now' (restyled E r f) headers body res' ->
  (res = Err InsufficientContent <-> res' = Err InsufficientContent)
  /\ (res = Err SigOverflow <-> res' = Err SigOverflow)
  /\ forall o o', res = Ok o -> res' = Ok o' ->
       so_signature o' = redone E r now' (so_signature o) (s_signature_data (so_signature o')).
Proof.
  intros now now' r f headers body res res' R R'.
  assert (forall n, r_body_length E r = ExactLen n -> N.of_nat (length (canonical_body (c_body (r_canonicalization E r)) body)) < n ->
    forall h l, ~ signed_body E r body h l) as X1.
  { intros n A La h l S. destruct S as [A'|cb A'|m a b A' La' Ea']; try congruence. rewrite A in A'. injection A' as <-.
    rewrite Ea', app_length in La. lia. }
  assert (forall h l h' l', signed_body E r body h (Some l) -> 2^64 <= l -> signed_body E r body h' l' -> (forall m, l' = Some m -> m < 2^64) -> False) as X2.
  { intros h l h' l' S L S' Q. destruct (signed_body_det _ _ _ _ _ _ S S') as [_ <-]. specialize (Q _ eq_refl). lia. }
  assert (forall n u, to_sign E n r headers body u -> exists h, signed_body E r body h (u_body_length u)) as U.
  { intros n u (h & l & ns & cp & S & _ & _ & ->). exists h. exact S. }
  assert (forall n u, to_sign E n (restyled E r f) headers body u -> to_sign E n r headers body u) as UR.
  { intros n u (h & l & ns & cp & S & S2 & S3 & ->). exists h, l, ns, cp.
    split; [apply body_restyled in S; exact S|]. split; [apply names_restyled in S2; exact S2|]. split; [exact S3|reflexivity]. }
  destruct R as [n A La|h l S L|u pre post TS Q _ _|u pre post sg n b TS Q _ _ _ _];
  destruct R' as [n' A' La'|h' l' S' L'|u' pre' post' TS' Q' _ _|u' pre' post' sg' n' b' TS' Q' _ _ _ _];
    try (apply body_restyled in S'); try (apply UR in TS');
    try (destruct (U _ _ TS) as (x & US)); try (destruct (U _ _ TS') as (x' & US'));
    try (exfalso; eapply X1; eassumption);
    try (exfalso; eapply X2; [exact S|exact L|exact US'|exact Q']);
    try (exfalso; eapply X2; [exact S'|exact L'|exact US|exact Q]);
    try (split; [split; congruence|split; [split; congruence|discriminate]]);
    try (split; [split; congruence|split; [split; congruence|intros ? ? ? Z; discriminate Z]]).
  split; [split; discriminate|split; [split; discriminate|]]. intros o o' Eo Eo'. injection Eo as <-. injection Eo' as <-.
  destruct TS as (h & l & ns & cp & S & Nm & Cp & ->). destruct TS' as (h' & l' & ns' & cp' & S' & Nm' & Cp' & ->).
  destruct (signed_body_det _ _ _ _ _ _ S S') as [<- <-]. pose proof (signed_names_det _ _ _ _ Nm Nm') as <-.
  pose proof (copied_det _ _ _ _ _ Cp Cp') as <-. unfold redone.
  rewrite expiration_same. unfold time_of.
  cbn [so_signature s_algorithm s_signature_data s_body_hash s_canonicalization s_domain s_signed_headers s_identity s_body_length s_selector
       s_copied_headers s_ext_tags u_algorithm u_body_hash u_canonicalization u_domain u_signed_headers u_identity u_body_length u_selector
       u_timestamp u_expiration u_copied_headers u_ext_tags].
  destruct (r_timestamp E r); reflexivity.
Qed.

Theorem signing_restyled : forall order headers r f chunks clock clock' res res', crypto_typed E ->
  request_typed E r -> request_typed E (restyled E r f) -> header_fields headers -> (forall l, Permutation (order l) l) ->
  sign_message E order headers [r] chunks clock = Val (Ok [res]) ->
  sign_message E order headers [restyled E r f] chunks clock' = Val (Ok [res']) ->
  (res = Err InsufficientContent <-> res' = Err InsufficientContent)
  /\ (res = Err SigOverflow <-> res' = Err SigOverflow)
  /\ forall o o', res = Ok o -> res' = Ok o' ->
       so_signature o' = redone E r (clock' 0%nat) (so_signature o) (s_signature_data (so_signature o')).
Proof.
  intros order headers r f chunks clock clock' res res' HC T T' H O M M'.
  destruct (sign_results E order headers [r] chunks clock _ HC ltac:(auto) H O M) as (_ & _ & _ & X).
  destruct (sign_results E order headers [restyled E r f] chunks clock' _ HC ltac:(auto) H O M') as (_ & _ & _ & X').
  destruct (X 0%nat _ _ eq_refl eq_refl) as (_ & _ & R). destruct (X' 0%nat _ _ eq_refl eq_refl) as (_ & _ & R').
  eapply result_restyled; eassumption.
Qed.

End WithEnv.
