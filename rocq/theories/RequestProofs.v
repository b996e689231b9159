(** Lemmas for C57: several requests in one run. *)

From Coq Require Import String List Permutation.
From Verif Require Import Base Utf8 Canon BodyHash Header Domain Signature Crypto TagList Format Sign
  SpecText SpecCanon SpecHash SpecHeader SpecTag SpecDomain SpecSig SpecFormat SpecSign
  BodyHashProofs SignProofs Lib.
Import ListNotations.
Open Scope N_scope.

Section WithEnv.
Variable E : Env.
Notation C := (env_crypto E).

Lemma perform_same : forall now r headers results results',
  results_get results (key_of E r) = results_get results' (key_of E r) ->
  first_of (request_checks E r) None -> request_typed E r ->
  perform_signing E now r headers results = perform_signing E now r headers results'.
Proof.
  intros now r headers results results' H A T. pose proof (accepted E r T A) as (_ & _ & _ & _ & _ & _ & _ & _ & _ & A10).
  unfold perform_signing. rewrite A10. fold (key_of E r). rewrite H. reflexivity.
Qed.

Lemma sign_tasks_nth : forall clock headers results ts i rs, sign_tasks E clock i headers results ts = Val rs ->
  length rs = length ts
  /\ forall j r res, nth_error ts j = Some r -> nth_error rs j = Some res -> perform_signing E (clock (i + j)%nat) r headers results = Val res.
Proof.
  intros clock headers results ts. induction ts as [|t ts IH]; intros i rs H; cbn [sign_tasks] in H.
  - injection H as <-. split; [reflexivity|]. intros [|j] r res X; discriminate.
  - destruct (perform_signing E (clock i) t headers results) as [r0|] eqn:P; cbn [bind] in H; [|discriminate].
    destruct (sign_tasks E clock (S i) headers results ts) as [rs0|] eqn:S; cbn [bind] in H; [|discriminate]. injection H as <-.
    destruct (IH _ _ S) as [L N]. split; [cbn; lia|]. intros [|j] r res X Y; cbn [nth_error] in X, Y.
    + injection X as <-. injection Y as <-. replace (i + 0)%nat with i by lia. exact P.
    + replace (i + Datatypes.S j)%nat with (Datatypes.S i + j)%nat by lia. eapply N; eassumption.
Qed.

(** each request is dealt with on its own *)
Lemma run_each : forall order headers rs chunks clock results, Forall (request_typed E) rs -> (forall l, Permutation (order l) l) ->
  sign_message E order headers rs chunks clock = Val (Ok results) ->
  first_of (signing_checks E headers rs) None /\ length results = length rs
  /\ forall j r res, nth_error rs j = Some r -> nth_error results j = Some res ->
       exists bhr, results_get bhr (key_of E r) = Some (expected_result (hash_fn C) false (key_of E r) (concat chunks))
         /\ perform_signing E (clock j) r headers bhr = Val res.
Proof.
  intros order headers rs chunks clock results T Ho M. unfold sign_message in M.
  destruct (prepare_spec E order headers rs T) as (e & H & Ep). rewrite Ep in M. destruct e as [e|]; cbn [bind] in M; [discriminate|].
  split; [exact H|]. cbv zeta in M. set (b := fold_left bhb_register (map (key_of E) rs) (bhb_new false)) in *.
  destruct (hash_body_results (hash_fn C) b (order (bhb_registrations b)) chunks) as (sts & bh & H1 & _ & H2).
  rewrite (signer_chunks_hash E _ _ _ _ _ _ H1) in M. cbn [bind] in M. unfold sign in M. cbn [sg_body_hasher sg_headers sg_tasks] in M.
  rewrite H2 in M. cbn [bind] in M. destruct (sign_tasks _ _ _ _ _ _) as [res0|] eqn:S in M; cbn [bind] in M; [|discriminate]. injection M as <-.
  destruct (sign_tasks_nth _ _ _ _ _ _ S) as [L N]. split; [exact L|]. intros j r res X Y.
  eexists. split; [|exact (N j r res X Y)]. rewrite results_get_map. unfold b at 2. rewrite register_all_fot.
  assert (existsb (key_eqb (key_of E r)) (order (bhb_registrations b)) = true) as ->; [|reflexivity].
  apply existsb_key_In. rewrite (Permutation_in' eq_refl (Ho _)). unfold b. rewrite register_all_in. left.
  apply in_map. eapply nth_error_In. exact X.
Qed.

Theorem requests_separate : forall order order' headers rs chunks chunks' clock results j r res, crypto_typed E ->
  Forall (request_typed E) rs -> header_fields headers -> (forall l, Permutation (order l) l) -> (forall l, Permutation (order' l) l) ->
  concat chunks = concat chunks' ->
  sign_message E order headers rs chunks clock = Val (Ok results) ->
  nth_error rs j = Some r -> nth_error results j = Some res ->
  sign_message E order' headers [r] chunks' (fun _ => clock j) = Val (Ok [res]).
Proof.
  intros order order' headers rs chunks chunks' clock results j r res HC T Hh Ho Ho' B M Hr Hres.
  destruct (run_each _ _ _ _ _ _ T Ho M) as (A & _ & N). destruct (N j r res Hr Hres) as (bhr & G & P).
  assert (In r rs) as Hi by (eapply nth_error_In; exact Hr).
  apply checks_none in A as (HF & _ & A). rewrite Forall_forall in A, T.
  assert (Forall (request_typed E) [r]) as T1 by (constructor; auto).
  destruct (signing_spec E order' headers [r] chunks' (fun _ => clock j) HC T1 Hh Ho') as (e & He & X).
  assert (first_of (signing_checks E headers [r]) None) as A1.
  { apply checks_none. split; [exact HF|]. split; [cbn; lia|]. constructor; auto. }
  rewrite (first_of_det _ _ _ _ He A1) in X. destruct X as (results' & X & L & _). rewrite X.
  destruct results' as [|res' [|? ?]]; try discriminate L. destruct (run_each _ _ _ _ _ _ T1 Ho' X) as (_ & _ & N').
  destruct (N' 0%nat r res' eq_refl eq_refl) as (bhr' & G' & P').
  rewrite (perform_same _ _ _ _ bhr') in P by (auto; rewrite G, G', B; reflexivity). rewrite P in P'. injection P' as ->. reflexivity.
Qed.

End WithEnv.
