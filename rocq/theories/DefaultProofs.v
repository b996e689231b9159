(** Lemmas for C55: defaults of signer and verifier. *)

From Coq Require Import String List Permutation.
From Verif Require Import Base Utf8 Canon BodyHash Header Domain Signature KeyRecord Crypto TagList Format Sign Verify
  SpecText SpecCanon SpecHash SpecHeader SpecTag SpecDomain SpecSig SpecRecord SpecFormat SpecSign SpecOutput SpecVerify SpecEnd
  HeaderCanonProofs OutputProofs WidthProofs VerifyRun VerifyFacts EndProofs Lib.
Import ListNotations.
Open Scope N_scope.

Section WithEnv.
Variable E : Env.
Notation C := (env_crypto E).

Lemma fresh_unsigned_part : forall d s alg key headers chunks clock j o,
  signed_output E headers chunks clock j (request_new E d s alg key) o ->
  exists fs, selected (fun f => In (lower (fst f)) signed_by_default) headers fs
    /\ unsigned_part (so_signature o)
       = mkUSig alg (hash_fn C (alg_hash alg) (canonical_body Simple (concat chunks))) (mkCanon Relaxed Simple) d
           (rev (map fst fs)) None None s (Some (clock j)) (Some (N.min (clock j + 432000) (2^64 - 1))) [] [].
Proof.
  intros d s alg key headers chunks clock j o H. destruct (signed_output_of _ _ _ _ _ _ _ H) as (pre & post & n & b64 & O).
  destruct (oo_u _ _ _ _ _ _ _ _ _ _ _ _ O) as (hashed & l & names & copied & B & Nm & Cp & X).
  unfold copied_headers in Cp. cbn [request_new r_copy_headers] in Cp. subst copied.
  inversion Nm as [fs _ Sel E1|ns X1]; [|discriminate X1]. exists fs. split; [exact Sel|]. rewrite X.
  inversion B as [B1 B2|cb B1 B2|k cb b B1 B2]; try discriminate. reflexivity.
Qed.

Lemma fresh_name : forall d s alg key headers chunks clock j o,
  signed_output E headers chunks clock j (request_new E d s alg key) o -> so_header_name o = lit "DKIM-Signature".
Proof.
  intros d s alg key headers chunks clock j o H. destruct (signed_output_of _ _ _ _ _ _ _ H) as (pre & post & n & b64 & O).
  rewrite (oo_o _ _ _ _ _ _ _ _ _ _ _ _ O). reflexivity.
Qed.

Lemma examined_nth : forall config headers rs i name value r,
  result_for config headers rs i name value r ->
  exists k, (k < cf_max_signatures config)%nat /\ nth_error (signature_fields 0 headers) k = Some (i, (name, value)).
Proof.
  intros config headers rs i name value r (k & H & _). unfold examined in H. exists k.
  assert (k < length (firstn (cf_max_signatures config) (signature_fields 0 headers)))%nat as L by (apply nth_error_Some; congruence).
  rewrite firstn_length in L. split; [lia|]. rewrite <- H. symmetry. apply nth_error_firstn. lia.
Qed.

End WithEnv.
