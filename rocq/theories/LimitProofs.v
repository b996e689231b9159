(** Lemmas for C106: the limit on the number of signatures. *)

From Coq Require Import String List Permutation.
From Verif Require Import Base Utf8 Canon BodyHash Header Domain Signature KeyRecord Crypto TagList Format Sign Verify
  SpecText SpecCanon SpecHash SpecHeader SpecTag SpecDomain SpecSig SpecRecord SpecFormat SpecSign SpecVerify SpecLimit
  VerifyKeys VerifyRun VerifyFacts Lib.
Import ListNotations.
Open Scope N_scope.

Section WithEnv.
Variable E : Env.

Lemma record_outcome_max : forall headers config n sig name s txt r e,
  record_outcome E headers config sig name s txt r e -> record_outcome E headers (with_max n config) sig name s txt r e.
Proof. intros headers config n sig name s txt r e H. destruct H; [eapply ro_not_text|eapply ro_format|eapply ro_record]; eassumption. Qed.

Lemma records_outcome_max : forall headers config n sig name s txts r e,
  records_outcome E headers config sig name s txts r e -> records_outcome E headers (with_max n config) sig name s txts r e.
Proof.
  intros headers config n sig name s txts r e H. induction H.
  - apply rs_success. apply record_outcome_max. assumption.
  - apply rs_last. apply record_outcome_max. assumption.
  - eapply rs_more; [assumption|apply record_outcome_max; eassumption|assumption].
Qed.

Lemma verdict_max : forall answer headers config n now body i name value r,
  verdict E answer headers config now body i name value r -> verdict E answer headers (with_max n config) now body i name value r.
Proof.
  intros answer headers config n now body i name value r H. destruct H.
  - eapply vd_format; eassumption.
  - eapply vd_check; eassumption.
  - eapply vd_lookup; eassumption.
  - eapply vd_no_key; eassumption.
  - eapply vd_key; try eassumption. apply records_outcome_max. assumption.
  - change (body_status E config sig body) with (body_status E (with_max n config) sig body). eapply vd_body; try eassumption. apply records_outcome_max. assumption.
Qed.

Lemma Forall2_firstn : forall A B (P : A -> B -> Prop) n l l', Forall2 P l l' -> Forall2 P (firstn n l) (firstn n l').
Proof.
  intros A B P n l l' H. revert n. induction H as [|x y l l' X H IH]; intros [|n]; try constructor; auto.
Qed.

Lemma examined_max : forall n m config headers, (n <= m)%nat ->
  examined (with_max n config) headers = firstn n (examined (with_max m config) headers).
Proof.
  intros n m config headers L. unfold examined. cbn [with_max cf_max_signatures]. rewrite firstn_firstn. f_equal. lia.
Qed.

Theorem limit : forall w w' headers config n m chunks chunks' zone, (n <= m)%nat -> world_ok w -> world_ok w' -> header_fields headers ->
  steady (w_resolver w) zone -> steady (w_resolver w') zone -> (forall i, w_clock w i = w_clock w' i) -> concat chunks = concat chunks' ->
  exists rs, verify_message E w headers (with_max m config) chunks = Val rs
    /\ verify_message E w' headers (with_max n config) chunks' = Val (limited n rs).
Proof.
  intros w w' headers config n m chunks chunks' zone L W W' H S S' Hc Hb.
  pose proof (examined_max n m config headers L) as X.
  destruct (verify_message_cases E w headers (with_max m config) chunks W H) as [[A V]|(A & rs & V & _)];
  destruct (verify_message_cases E w' headers (with_max n config) chunks' W' H) as [[A' V']|(A' & rs' & V' & _)]; rewrite V, V'.
  - exists None. split; [reflexivity|]. destruct n; reflexivity.
  - rewrite A, firstn_nil in X. contradiction.
  - exists (Some rs). split; [reflexivity|]. rewrite A' in X. destruct n as [|n]; [reflexivity|].
    destruct (examined (with_max m config) headers); [contradiction|discriminate X].
  - exists (Some rs). split; [reflexivity|]. destruct n as [|n]; [rewrite X in A'; contradiction A'; reflexivity|].
    cbn [limited]. do 2 f_equal.
    pose proof (evaluation_verdicts _ _ _ _ _ _ _ (steady_evaluation _ _ _ _ _ _ _ W H S V)) as F.
    pose proof (evaluation_verdicts _ _ _ _ _ _ _ (steady_evaluation _ _ _ _ _ _ _ W' H S' V')) as F'.
    apply (Forall2_firstn _ _ _ (Datatypes.S n)) in F. rewrite <- X in F.
    eapply (verdicts_equal E _ _ _ (w_clock w')); [exact F'|]. revert F. apply Forall2_imp. intros f r _ _ D. rewrite Hc, Hb in D.
    apply (verdict_max _ _ _ (Datatypes.S n)) in D. exact D.
Qed.

Lemma firstn_in : forall A (x : A) n l, In x (firstn n l) -> In x l.
Proof. intros A x n l H. rewrite <- (firstn_skipn n l). apply in_or_app. left. exact H. Qed.

Theorem limit_lookups : forall w w' headers config n m v v' log log' t t', (n <= m)%nat -> world_ok w -> world_ok w' -> header_fields headers ->
  (forall i, w_clock w i = w_clock w' i) ->
  verify_header E w headers (with_max m config) = Val (Some (v, log, t)) ->
  verify_header E w' headers (with_max n config) = Val (Some (v', log', t')) ->
  exists qs qs', log = lookup_log (w_resolver w) 0 0 qs /\ log' = lookup_log (w_resolver w') 0 0 qs' /\ incl qs' qs /\ (length qs' <= n)%nat.
Proof.
  intros w w' headers config n m v v' log log' t t' L W W' H Hc V V'.
  destruct (lookups_spec E _ _ _ _ _ _ W H V) as (qs & X & _ & _ & Q & _). destruct (lookups_spec E _ _ _ _ _ _ W' H V') as (qs' & X' & _ & _ & Q' & B).
  exists qs, qs'. split; [exact X|]. split; [exact X'|]. split; [|cbn in B; lia].
  intros p P. apply Q. apply Q' in P. destruct P as (i & name & value & s & sig & I & P & LP). exists i, name, value, s, sig.
  rewrite (examined_max n m config headers L) in I. apply firstn_in in I. split; [exact I|]. split; [|exact LP]. rewrite Hc. exact P.
Qed.

End WithEnv.
