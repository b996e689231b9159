(** Proofs: line breaks at the end of a body, and what simple and relaxed have in common. *)

From Coq Require Import String List NArith Lia.
From Verif Require Import Base Canon Header Signature KeyRecord Crypto Verify SpecCanon SpecHash SpecHeader SpecVerify SpecEnd SpecDkim SpecTransit SpecAuthor SpecChange
  CanonProofs CanonShape TransitProofs Lib.
Import ListNotations.
Open Scope N_scope.

Lemma crlf_lines_ : forall b, exists ls l, b = terminate ls ++ l /\ b ++ [13; 10] = terminate (ls ++ [l]) ++ []
  /\ Forall (fun l => nc l = true) ls /\ nc l = true.
Proof.
  intros b. destruct (body_lines b) as (ls & l & -> & F1 & F2). exists ls, l. split; [reflexivity|].
  split; [rewrite terminate_app, terminate_one, app_nil_r, <- app_assoc; reflexivity|auto].
Qed.

Lemma relaxed_crlf : forall b, rfc_relaxed_body (b ++ [13; 10]) = rfc_relaxed_body b /\ ends_in_wsp_line (b ++ [13; 10]) = false.
Proof.
  intros b. destruct (crlf_lines_ b) as (ls & l & E & E' & F1 & F2). rewrite E'. rewrite E.
  assert (Forall (fun l => nc l = true) (ls ++ [l])) as F by (apply Forall_app; auto).
  unfold rfc_relaxed_body, ends_in_wsp_line. rewrite !lines_terminate by auto. rewrite last_last. split; [|reflexivity].
  rewrite (map_app _ (ls ++ [l])). cbn [map relaxed_line]. rewrite dte_snoc. reflexivity.
Qed.

Lemma longer : forall a x : list byte, x <> [] -> a ++ x <> a.
Proof. intros a x H E. apply (f_equal (@length _)) in E. rewrite app_length in E. destruct x; [contradiction|]. cbn [length] in E. lia. Qed.

Theorem final_break : forall alg b, canonical_body alg (b ++ [13; 10]) = canonical_body alg b <-> ~ exceptional alg b.
Proof.
  intros [] b; cbn [canonical_body exceptional].
  - split.
    + intros H ->. vm_compute in H. discriminate H.
    + intros H. unfold impl_simple_body, only_crlfs, rfc_simple_body. rewrite strip_crlf_snoc.
      destruct b as [|c b]; [contradiction|]. reflexivity.
  - unfold impl_relaxed_body. destruct (relaxed_crlf b) as (-> & ->). destruct (ends_in_wsp_line b).
    + split; [intros H; destruct (longer (rfc_relaxed_body b) [13; 10] ltac:(discriminate) (eq_sym H))|intros H; destruct H; reflexivity].
    + split; [intros _ H; discriminate H|reflexivity].
Qed.

Lemma simple_rfc_relaxed : forall b b', same_body Simple b b' -> rfc_relaxed_body b = rfc_relaxed_body b'.
Proof.
  intros b b' H. induction H as [b _ _|a v w c X|a v c X|b v X|b|b b' _ IH|b b' b'' _ IH _ IH']; try discriminate X; try congruence.
  symmetry. apply relaxed_crlf.
Qed.

Theorem simple_relaxed : forall b b', same_body Simple b b' ->
  (same_body Relaxed b b' <-> ends_in_wsp_line b = ends_in_wsp_line b').
Proof.
  intros b b' H. apply simple_rfc_relaxed in H. split.
  - intros S. apply same_body_canonical in S. cbn [canonical_body] in S. unfold impl_relaxed_body in S. rewrite H in S.
    destruct (ends_in_wsp_line b), (ends_in_wsp_line b'); try reflexivity; [|symmetry in S]; destruct (longer (rfc_relaxed_body b') [13; 10] ltac:(discriminate) S).
  - intros S. apply canonical_same_body. cbn [canonical_body]. unfold impl_relaxed_body. rewrite H, S. reflexivity.
Qed.

Lemma break_kept : forall E config sig body, s_body_length sig = None ->
  let alg := c_body (s_canonicalization sig) in
  (body_kept E config sig body (body ++ [13; 10])
   <-> ~ exceptional alg body
       \/ collision E (alg_hash (s_algorithm sig)) (canonical_body alg body) (canonical_body alg (body ++ [13; 10]))).
Proof.
  intros E config sig body L alg. unfold body_kept. rewrite L. fold alg. cbv zeta. split; (intros [H|H]; [left|right; exact H]).
  - apply final_break. symmetry. apply same_body_canonical. exact H.
  - apply canonical_same_body. symmetry. apply final_break. exact H.
Qed.
