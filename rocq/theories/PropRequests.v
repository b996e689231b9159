(** Property C57: several signing requests in one run. *)

From Coq Require Import String List Permutation.
From Verif Require Import Base Utf8 Canon BodyHash Header Domain Signature Crypto TagList Format Sign
  SpecText SpecCanon SpecHash SpecHeader SpecTag SpecDomain SpecSig SpecFormat SpecSign
  SignProofs RequestProofs Lib Sample PropDomain PropSign.
Import ListNotations.
Open Scope N_scope.

(** ** C57 *)

(** The result of each request is what signing with this request alone gives,
    whatever the other requests, the order of hash map entries, and chunks are. *)
Theorem C57_separate : forall E order order' headers rs chunks chunks' clock results j r res, crypto_typed E ->
  Forall (request_typed E) rs -> header_fields headers -> (forall l, Permutation (order l) l) -> (forall l, Permutation (order' l) l) ->
  concat chunks = concat chunks' ->
  sign_message E order headers rs chunks clock = Val (Ok results) ->
  nth_error rs j = Some r -> nth_error results j = Some res ->
  sign_message E order' headers [r] chunks' (fun _ => clock j) = Val (Ok [res]).
Proof. exact requests_separate. Qed.
Print Assumptions C57_separate.

(** Up to ten requests that are accepted one by one are accepted together. *)
Theorem C57_together : forall E order headers rs chunks clock, crypto_typed E ->
  Forall (request_typed E) rs -> header_fields headers -> (forall l, Permutation (order l) l) ->
  (1 <= length rs <= 10)%nat ->
  (forall j r, nth_error rs j = Some r -> exists res, sign_message E order headers [r] chunks (fun _ => clock j) = Val (Ok [res])) ->
  exists results, sign_message E order headers rs chunks clock = Val (Ok results)
    /\ length results = length rs
    /\ forall j r res, nth_error rs j = Some r -> nth_error results j = Some res ->
         sign_message E order headers [r] chunks (fun _ => clock j) = Val (Ok [res]).
Proof.
  intros E order headers rs chunks clock HC T Hh Ho L A.
  assert (first_of (signing_checks E headers rs) None) as F.
  { apply checks_none. destruct rs as [|r0 rs0]; [cbn in L; lia|]. split; [|split; [exact L|]].
    - destruct (A 0%nat r0 eq_refl) as (res & M). inversion T; subst. destruct (sign_results E order headers [r0] chunks _ _ HC ltac:(auto) Hh Ho M) as (X & _). exact X.
    - apply Forall_forall. intros r Hr. apply In_nth_error in Hr as (j & Hj). destruct (A j r Hj) as (res & M).
      assert (Forall (request_typed E) [r]) as T1 by (constructor; [rewrite Forall_forall in T; apply T; eapply nth_error_In; exact Hj|constructor]).
      destruct (sign_results E order headers [r] chunks _ _ HC T1 Hh Ho M) as (_ & _ & _ & X). destruct (X 0%nat r res eq_refl eq_refl) as (_ & Y & _). exact Y. }
  destruct (signing_spec E order headers rs chunks clock HC T Hh Ho) as (e & He & X). rewrite (first_of_det _ _ _ _ He F) in X.
  destruct X as (results & M & Le & _). exists results. split; [exact M|]. split; [exact Le|].
  intros j r res Hr Hres. eapply requests_separate; eauto.
Qed.
Print Assumptions C57_together.

Example C57_example : (2 <= length sample_requests)%nat
  /\ crypto_typed toy_env /\ Forall (request_typed toy_env) sample_requests /\ header_fields sample_headers
  /\ exists results, sign_message toy_env (@rev _) sample_headers sample_requests [lit "Hi"; [13; 10]] (fun _ => 1000) = Val (Ok results)
     /\ map (fun r => sign_message toy_env (fun l => l) sample_headers [r] [lit "Hi" ++ [13; 10]] (fun _ => 1000)) sample_requests
        = map (fun res => Val (Ok [res])) results
     /\ (2 <= length (filter (fun r => match r with Ok _ => true | _ => false end) results))%nat.
Proof.
  split; [apply Nat.leb_le; reflexivity|]. split; [exact toy_typed|]. split; [exact sample_typed|]. split; [exact sample_header_fields|].
  eexists. split; [vm_compute; reflexivity|]. split; [vm_compute; reflexivity|apply Nat.leb_le; vm_compute; reflexivity].
Qed.
