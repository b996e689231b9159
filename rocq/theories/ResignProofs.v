(** Lemmas for C104: messages that are the same to a signing request. *)

From Coq Require Import String List Permutation.
From Verif Require Import Base Utf8 Canon BodyHash Header Domain Signature Crypto TagList Format Sign
  SpecText SpecCanon SpecHash SpecHeader SpecTag SpecDomain SpecSig SpecFormat SpecSign SpecTransit SpecResign
  BodyHashProofs HeaderCanonProofs TransitProofs SignProofs RequestProofs CopiedProofs Lib.
Import ListNotations.
Open Scope N_scope.

Lemma same_nth : forall A (l l' : list A), (forall j, nth_error l j = nth_error l' j) -> l = l'.
Proof.
  induction l as [|x l IH]; intros [|y l'] H; [reflexivity|discriminate (H 0%nat)|discriminate (H 0%nat)|].
  injection (H 0%nat) as ->. f_equal. apply IH. intros j. exact (H (S j)).
Qed.

Section WithEnv.
Variable E : Env.
Notation C := (env_crypto E).

Lemma names_model : forall r headers names, signed_names E r headers names ->
  match r_header_selection E r with Auto => select_signed_headers headers | Manual h => h end = names.
Proof.
  intros r headers names H. destruct H as [fs A S|ns M]; [|rewrite M; reflexivity]. rewrite A, select_signed_filter, map_rev. do 2 f_equal.
  eapply selected_det; [|exact S]. apply selected_filter. intros f _. apply signed_default.
Qed.

Lemma copied_model : forall r headers names copied, copied_headers E r headers names copied ->
  (if r_copy_headers E r then prepare_copied_headers headers names else []) = copied.
Proof.
  intros r headers names copied H. unfold copied_headers in H. destruct (r_copy_headers E r); [|auto].
  eapply selected_det; [|exact H]. unfold prepare_copied_headers. apply selected_filter. intros f _.
  rewrite existsb_exists. split; intros (n & N1 & N2); exists n; split; auto.
  - rewrite name_eqb_same in N2. apply leqb_eq in N2. exact N2.
  - rewrite name_eqb_same. apply leqb_eq. exact N2.
Qed.

Lemma produce_alike : forall u key format headers headers', header_fields headers -> header_fields headers' ->
  lower (of_header_name format) = lit "dkim-signature" ->
  same_fields (c_header (u_canonicalization u)) (u_signed_headers u) headers headers' ->
  produce_signature E u key format headers = produce_signature E u key format headers'.
Proof.
  intros u key format headers headers' H H' L S. unfold produce_signature.
  destruct (format_without_signature _ _ _ _) as [[v i]|]; cbn [bind]; [|reflexivity].
  rewrite !data_hash_spec; try (apply header_name_valid; exact L); try (eapply Forall_impl; [|eassumption]; cbn beta; tauto).
  unfold header_digest. rewrite (hash_input_same _ _ _ _ S). reflexivity.
Qed.

Lemma perform_alike : forall now r headers headers' body body' results results',
  request_typed E r -> first_of (request_checks E r) None -> header_fields headers -> header_fields headers' ->
  alike_headers E r headers headers' -> alike_body E r body body' ->
  results_get results (key_of E r) = Some (expected_result (hash_fn C) false (key_of E r) body) ->
  results_get results' (key_of E r) = Some (expected_result (hash_fn C) false (key_of E r) body') ->
  perform_signing E now r headers results = perform_signing E now r headers' results'.
Proof.
  intros now r headers headers' body body' results results' T A H H' (names & copied & N & N' & S & Cp & Cp') B G G'.
  pose proof (accepted E r T A) as (_ & _ & _ & _ & _ & _ & A7 & _ & _ & A10).
  assert (expected_result (hash_fn C) false (key_of E r) body = expected_result (hash_fn C) false (key_of E r) body') as X.
  { unfold expected_result, key_of, request_key. rewrite (same_body_canonical _ _ _ B). reflexivity. }
  unfold perform_signing. rewrite A10. fold (key_of E r). rewrite G, G', X.
  rewrite (names_model _ _ _ N), (names_model _ _ _ N'), (copied_model _ _ _ _ Cp), (copied_model _ _ _ _ Cp').
  destruct (expected_result (hash_fn C) false (key_of E r) body') as [[bh len]|[]]; [|reflexivity|reflexivity].
  destruct (match r_body_length E r with NoLimit => _ | _ => _ end); [|reflexivity].
  destruct (negb _); [reflexivity|]. destruct (existsb _ _); [reflexivity|]. cbv zeta.
  apply produce_alike; assumption.
Qed.

Theorem signing_alike : forall order order' headers headers' rs chunks chunks' clock, crypto_typed E ->
  Forall (request_typed E) rs -> header_fields headers -> header_fields headers' ->
  (forall l, Permutation (order l) l) -> (forall l, Permutation (order' l) l) ->
  ((exists f, In f headers /\ same_name (fst f) (lit "From")) <-> (exists f, In f headers' /\ same_name (fst f) (lit "From"))) ->
  Forall (fun r => alike_headers E r headers headers' /\ alike_body E r (concat chunks) (concat chunks')) rs ->
  sign_message E order headers rs chunks clock = sign_message E order' headers' rs chunks' clock.
Proof.
  intros order order' headers headers' rs chunks chunks' clock HC T H H' O O' F A.
  destruct (signing_spec E order headers rs chunks clock HC T H O) as (e & He & X).
  destruct (signing_spec E order' headers' rs chunks' clock HC T H' O') as (e' & He' & X').
  assert (first_of (signing_checks E headers' rs) e) as He2.
  { unfold signing_checks in He |- *. cbn [app] in He |- *. remember (lit "From") as from eqn:Ef. inversion He as [|P a l Y|P a l o Y Z]; subst P a l.
    - apply fo_here. intros f I S. destruct (proj2 F (ex_intro _ f (conj I S))) as (g & J & K). exact (Y g J K).
    - apply fo_next; [|exact Z]. intros Q. apply Y. intros f I S. destruct (proj1 F (ex_intro _ f (conj I S))) as (g & J & K). exact (Q g J K). }
  rewrite (first_of_det _ _ _ _ He' He2) in X'. destruct e as [e|]; [rewrite X, X'; reflexivity|].
  destruct X as (res & X & L & _), X' as (res' & X' & L' & _). rewrite X, X'. do 2 f_equal.
  destruct (run_each E _ _ _ _ _ _ T O X) as (Ch & _ & N). destruct (run_each E _ _ _ _ _ _ T O' X') as (_ & _ & N').
  apply checks_none in Ch as (_ & _ & Ch). rewrite Forall_forall in Ch, T, A.
  apply same_nth. intros j. destruct (nth_error rs j) as [r|] eqn:Er.
  - assert (j < length rs)%nat as Lj by (apply nth_error_Some; congruence).
    destruct (nth_error res j) as [x|] eqn:Ex; [|apply nth_error_None in Ex; lia].
    destruct (nth_error res' j) as [x'|] eqn:Ex'; [|apply nth_error_None in Ex'; lia].
    destruct (N _ _ _ Er Ex) as (b & G & P), (N' _ _ _ Er Ex') as (b' & G' & P'). apply nth_error_In in Er.
    destruct (A _ Er) as (A1 & A2).
    rewrite (perform_alike _ _ headers headers' _ _ b b' (T _ Er) (Ch _ Er) H H' A1 A2 G G') in P. congruence.
  - apply nth_error_None in Er. transitivity (@None (result SigningOutput SigningError)); [|symmetry]; apply nth_error_None; lia.
Qed.

(** ** Headers whose fields are alike one by one *)

Lemma named_alike : forall alg n headers headers',
  Forall2 (fun f f' => fst f = fst f' /\ same_field alg f f') headers headers' ->
  Forall2 (same_field alg) (named n headers) (named n headers').
Proof.
  intros alg n headers headers' H. unfold named. induction H as [|f f' l l' [N S] H IH]; cbn [filter]; [constructor|].
  rewrite N. destruct (same_nameb (fst f') n); [constructor; assumption|exact IH].
Qed.

Lemma selected_alike : forall (P : FieldName -> Prop) (R : HeaderField -> HeaderField -> Prop) headers headers' fs,
  Forall2 (fun f f' => fst f = fst f' /\ R f f') headers headers' ->
  selected (fun f => P (fst f)) headers fs -> exists fs', selected (fun f => P (fst f)) headers' fs' /\ map fst fs = map fst fs'.
Proof.
  intros P R headers headers' fs H. revert fs. induction H as [|f f' l l' [N _] H IH]; intros fs S; inversion S; subst.
  - exists []. split; [constructor|reflexivity].
  - destruct (IH _ H4) as (fs' & S' & M). exists (f' :: fs'). split; [apply sel_keep; [rewrite <- N|]; assumption|cbn [map]; congruence].
  - destruct (IH _ H4) as (fs' & S' & M). exists fs'. split; [apply sel_drop; [rewrite <- N|]; assumption|exact M].
Qed.

Lemma fields_alike : forall r headers headers', r_copy_headers E r = false ->
  Forall2 (fun f f' => fst f = fst f' /\ same_field (c_header (r_canonicalization E r)) f f') headers headers' ->
  alike_headers E r headers headers'.
Proof.
  intros r headers headers' Cp H. unfold alike_headers, copied_headers. rewrite Cp.
  destruct (r_header_selection E r) as [|names] eqn:Hs.
  - pose proof (selected_filter _ (fun f : HeaderField => In (lower (fst f)) signed_by_default) _ headers
      (fun f _ => signed_default (fst f))) as S.
    destruct (selected_alike (fun n => In (lower n) signed_by_default) _ _ _ _ H S) as (fs' & S' & M).
    exists (rev (map fst fs')), []. split; [rewrite <- M; apply sn_auto; assumption|]. split; [apply sn_auto; assumption|].
    split; [|auto]. intros n _. apply named_alike. exact H.
  - exists names, []. split; [apply sn_manual; exact Hs|]. split; [apply sn_manual; exact Hs|]. split; [|auto].
    intros n _. apply named_alike. exact H.
Qed.

Lemma from_alike : forall (R : HeaderField -> HeaderField -> Prop) headers headers',
  Forall2 (fun f f' => fst f = fst f' /\ R f f') headers headers' ->
  ((exists f, In f headers /\ same_name (fst f) (lit "From")) <-> (exists f, In f headers' /\ same_name (fst f) (lit "From"))).
Proof.
  intros R headers headers' H. induction H as [|f f' l l' [N _] H IH]; [split; intros (f & [] & _)|].
  split; intros (g & [<-|I] & S).
  - exists f'. split; [left; reflexivity|rewrite <- N; exact S].
  - destruct (proj1 IH (ex_intro _ g (conj I S))) as (k & K1 & K2). exists k. split; [right; exact K1|exact K2].
  - exists f. split; [left; reflexivity|rewrite N; exact S].
  - destruct (proj2 IH (ex_intro _ g (conj I S))) as (k & K1 & K2). exists k. split; [right; exact K1|exact K2].
Qed.

Theorem signing_fields_alike : forall order order' headers headers' r chunks chunks' clock, crypto_typed E ->
  request_typed E r -> header_fields headers -> header_fields headers' ->
  (forall l, Permutation (order l) l) -> (forall l, Permutation (order' l) l) -> r_copy_headers E r = false ->
  Forall2 (fun f f' => fst f = fst f' /\ same_field (c_header (r_canonicalization E r)) f f') headers headers' ->
  alike_body E r (concat chunks) (concat chunks') ->
  sign_message E order headers [r] chunks clock = sign_message E order' headers' [r] chunks' clock.
Proof.
  intros order order' headers headers' r chunks chunks' clock HC T H H' O O' Cp A B.
  apply signing_alike; auto; [exact (from_alike _ _ _ A)|]. constructor; [|constructor]. split; [apply fields_alike; assumption|exact B].
Qed.

End WithEnv.
