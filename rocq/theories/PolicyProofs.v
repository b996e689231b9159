(** Lemmas on policy: bodies partly covered by a signature. *)

From Coq Require Import List.
From Verif Require Import Base Canon BodyHash Crypto Signature KeyRecord Sign Verify SpecCanon SpecHash SpecSign SpecVerify
  CanonProofs CanonShape VerifyFacts Lib.
Import ListNotations.
Open Scope N_scope.

Lemma dte_prefix : forall a b, exists c, drop_trailing_empty (a ++ b) = drop_trailing_empty a ++ c.
Proof.
  intros a b. induction b as [|x b IH] using rev_ind.
  - exists []. rewrite !app_nil_r. reflexivity.
  - rewrite app_assoc, dte_snoc. destruct x as [|c x]; [exact IH|].
    assert (forall l, exists d, l = drop_trailing_empty l ++ d) as X.
    { clear. induction l as [|x l IH] using rev_ind; [exists []; reflexivity|]. rewrite dte_snoc. destruct x as [|c x].
      - destruct IH as (d & IH). exists (d ++ [[]]). rewrite IH at 1. rewrite <- app_assoc. reflexivity.
      - exists []. rewrite app_nil_r. reflexivity. }
    destruct (X a) as (d & D). exists (d ++ b ++ [c :: x]). rewrite <- app_assoc. rewrite D at 1. rewrite <- app_assoc. reflexivity.
Qed.

Lemma simple_lines : forall ls l, Forall (fun l => nc l = true) ls -> nc l = true -> terminate ls ++ l <> [] ->
  impl_simple_body (terminate ls ++ l) = terminate (drop_trailing_empty (ls ++ [l])).
Proof.
  intros ls l H1 H2 N. unfold impl_simple_body, only_crlfs, rfc_simple_body. assert (is_nil (terminate ls ++ l) = false) as -> by (destruct (terminate ls ++ l); [contradiction|reflexivity]).
  clear N. cbn [negb andb]. rewrite dte_snoc. destruct l as [|c l].
  - rewrite app_nil_r. pose proof (strip_terminate ls H1) as S. destruct (drop_trailing_empty ls) as [|d ds] eqn:D.
    + rewrite S. reflexivity.
    + destruct (is_nil (strip_trailing_crlfs (terminate ls))) eqn:Z; [|exact S].
      apply is_nil_true in Z. rewrite Z in S. cbn [app] in S.
      assert (d :: ds = [[]]) as X.
      { destruct d as [|x d].
        - f_equal. apply terminate_nil. unfold terminate in *. cbn [map concat app] in S. injection S. intros. congruence.
        - exfalso. assert (nc (x :: d) = true) as Hn.
          { rewrite Forall_forall in H1. apply H1. apply dte_incl. rewrite D. left. reflexivity. }
          unfold terminate in S. cbn [map concat app] in S. injection S as S1 S2. subst x.
          destruct d as [|y d]; cbn [app] in S2; [discriminate S2|]. injection S2 as S2 S3. subst y. discriminate Hn. }
      exfalso. apply (dte_last ls [] []); [rewrite D; exact X|reflexivity].
  - rewrite strip_nonempty_line by (auto; discriminate).
    destruct (is_nil (terminate ls ++ c :: l)) eqn:Z; [apply is_nil_true in Z; destruct (terminate ls); discriminate Z|].
    rewrite <- app_assoc, terminate_app, terminate_one. reflexivity.
Qed.

(** What follows a complete line does not change the canonical form of what
    precedes it. *)
Lemma canonical_prefix : forall alg a extra, exists more,
  canonical_body alg ((a ++ [13; 10]) ++ extra) = canonical_body alg (a ++ [13; 10]) ++ more.
Proof.
  intros alg a extra. destruct (body_lines a) as (la & l & -> & F1 & F2). destruct (body_lines extra) as (le & e & -> & G1 & G2).
  set (ls := la ++ [l]). assert ((terminate la ++ l) ++ [13; 10] = terminate ls ++ []) as ->.
  { unfold ls. rewrite terminate_app, terminate_one, app_nil_r, app_assoc. reflexivity. }
  assert (Forall (fun l => nc l = true) ls) as F by (apply Forall_app; auto).
  assert (Forall (fun l => nc l = true) (ls ++ le)) as FG by (apply Forall_app; auto).
  assert ((terminate ls ++ []) ++ terminate le ++ e = terminate (ls ++ le) ++ e) as ->.
  { rewrite app_nil_r, terminate_app, app_assoc. reflexivity. }
  destruct (ls ++ le) as [|z zs] eqn:Z; [unfold ls in Z; destruct la; discriminate Z|]. rewrite <- Z in *.
  assert (forall x, terminate (ls ++ le) ++ x <> []) as N.
  { intros x X. apply app_eq_nil in X as [X _]. apply terminate_nil in X. rewrite Z in X. discriminate X. }
  assert (terminate ls ++ [] <> []) as N'.
  { intros X. apply app_eq_nil in X as [X _]. apply terminate_nil in X. unfold ls in X. destruct la; discriminate X. }
  destruct alg; cbn [canonical_body].
  - rewrite !simple_lines by auto. rewrite (dte_snoc ls []). rewrite <- app_assoc. destruct (dte_prefix ls (le ++ [e])) as (c & ->).
    exists (terminate c). apply terminate_app.
  - unfold impl_relaxed_body, rfc_relaxed_body, ends_in_wsp_line. rewrite !lines_terminate by auto.
    rewrite !last_last. cbn [is_nil negb andb]. rewrite !map_app, <- app_assoc. cbn [map relaxed_line]. rewrite dte_snoc.
    destruct (dte_prefix (map relaxed_line ls) (map relaxed_line le ++ [relaxed_line e])) as (c & ->). rewrite terminate_app.
    destruct (negb (is_nil e) && forallb wsp e); eexists; [rewrite <- app_assoc|]; reflexivity.
Qed.

Section WithEnv.
Variable E : Env.

(** only the covered part counts *)
Lemma body_status_covered : forall config sig body body' l covered rest rest',
  cf_forbid_unsigned_content config = false -> s_body_length sig = Some l -> N.of_nat (length covered) = l ->
  canonical_body (c_body (s_canonicalization sig)) body = covered ++ rest ->
  canonical_body (c_body (s_canonicalization sig)) body' = covered ++ rest' ->
  body_status E config sig body = body_status E config sig body'.
Proof.
  intros config sig body body' l covered rest rest' F L N B B'. unfold body_status, expected_result. rewrite F, L, B, B'. cbn [andb].
  rewrite !app_length. destruct (_ <? l) eqn:A1; [lia|]. destruct (N.of_nat (length covered + length rest') <? l) eqn:A2; [lia|].
  assert (forall x, firstn (N.to_nat l) (covered ++ x) = covered) as X; [|rewrite !X; reflexivity].
  intros x. rewrite <- N, Nnat.Nat2N.id. rewrite firstn_app, firstn_all, Nat.sub_diag, firstn_O. apply app_nil_r.
Qed.

(** results given the signature read from the field *)
Lemma verdict_body : forall answer headers config now body body' i name value r r' s sig,
  signature_read E value s (Ok sig) ->
  verdict E answer headers config now body i name value r -> verdict E answer headers config now body' i name value r' ->
  body_status E config sig body = body_status E config sig body' -> r = r'.
Proof.
  intros answer headers config now body body' i name value r r' s sig R V V' B.
  destruct V as [s0 e0 R0|s0 sg e0 R0 F0|s0 sg p k e0 P L A X|s0 sg p P L A|s0 sg p txts k e0 P L A X|s0 sg p txts k P L A X].
  - exact (verdict_det _ _ _ _ _ _ _ _ _ _ _ (vd_format _ _ _ _ _ _ _ _ _ _ _ R0) V').
  - exact (verdict_det _ _ _ _ _ _ _ _ _ _ _ (vd_check _ _ _ _ _ _ _ _ _ _ _ _ R0 F0) V').
  - exact (verdict_det _ _ _ _ _ _ _ _ _ _ _ (vd_lookup _ _ _ _ _ _ _ _ _ _ _ _ _ _ P L A X) V').
  - exact (verdict_det _ _ _ _ _ _ _ _ _ _ _ (vd_no_key _ _ _ _ _ _ _ _ _ _ _ _ P L A) V').
  - exact (verdict_det _ _ _ _ _ _ _ _ _ _ _ (vd_key _ _ _ _ _ _ _ _ _ _ _ _ _ _ _ P L A X) V').
  - assert (sg = sig) as ->. { destruct P as [P _]. destruct (VerifyProofs.signature_read_det _ _ _ _ _ _ P R) as [_ Y]. injection Y. auto. }
    rewrite B. exact (verdict_det _ _ _ _ _ _ _ _ _ _ _ (vd_body _ _ _ _ _ _ _ _ _ _ _ _ _ _ P L A X) V').
Qed.

End WithEnv.
