(** Proofs about the shape of canonical bodies, and idempotence. *)

From Verif Require Import Lib Utf8 Canon SpecCanon CanonProofs.

Lemma wsp_cases : forall c, wsp c = true <-> c = 32 \/ c = 9.
Proof. intros. unfold wsp. lia. Qed.

Lemma relaxed_line_no_tab : forall l, ~ In 9 (relaxed_line l).
Proof.
  induction l as [|c l IH] using rev_ind; [easy|].
  destruct (wsp c) eqn:E.
  - rewrite relaxed_line_snoc_wsp by auto. auto.
  - rewrite relaxed_line_snoc by auto. rewrite in_app_iff. intros [H|H]; auto.
    destruct (ends_wsp l); simpl in H;
      repeat (destruct H as [H|H]; [subst; discriminate|]); auto.
Qed.

Lemma relaxed_line_no_end : forall l a, relaxed_line l <> a ++ [32].
Proof.
  induction l as [|c l IH] using rev_ind; intros a.
  - destruct a; easy.
  - destruct (wsp c) eqn:E.
    + rewrite relaxed_line_snoc_wsp by auto. auto.
    + rewrite relaxed_line_snoc by auto. intros H.
      assert (exists x, relaxed_line l ++ (if ends_wsp l then [32; c] else [c]) = x ++ [c]) as (x & X).
      { destruct (ends_wsp l); eexists; [|reflexivity].
        change [32; c] with ([32] ++ [c]). rewrite app_assoc. reflexivity. }
      rewrite X in H. apply app_inj_tail in H. destruct H. subst. discriminate.
Qed.

Lemma relaxed_line_no_double : forall l a b, relaxed_line l <> a ++ [32; 32] ++ b.
Proof.
  induction l as [|c l IH]; intros a b H.
  - destruct a; discriminate.
  - destruct l as [|d l].
    + simpl in H. destruct (wsp c); destruct a as [|x [|]]; discriminate.
    + rewrite relaxed_line_cons2 in H.
      destruct (wsp c) eqn:Ec.
      * destruct (forallb wsp (d :: l)); [destruct a; discriminate|].
        destruct (wsp d) eqn:Ed; [eapply IH; eauto|].
        destruct a as [|x a].
        -- inv H. simpl in H1. rewrite Ed in H1. inv H1. discriminate.
        -- apply (f_equal (@tl N)) in H. exact (IH _ _ H).
      * destruct a as [|x a].
        -- inv H. discriminate.
        -- apply (f_equal (@tl N)) in H. exact (IH _ _ H).
Qed.

Lemma relaxed_line_clean : forall l, clean_line (relaxed_line l).
Proof.
  intros. split; [apply relaxed_line_no_tab|]. split; [apply relaxed_line_no_double|].
  apply relaxed_line_no_end.
Qed.

Lemma clean_line_relaxed : forall l, clean_line l -> relaxed_line l = l.
Proof.
  induction l as [|c l IH]; intros (H1 & H2 & H3); auto.
  assert (clean_line l) as Hl.
  { split; [simpl in H1; auto|]. split.
    - intros a b E. apply (H2 (c :: a) b). rewrite E. auto.
    - intros a E. apply (H3 (c :: a)). rewrite E. auto. }
  specialize (IH Hl). destruct l as [|d l].
  - simpl. destruct (wsp c) eqn:E; auto. apply wsp_cases in E. destruct E; subst.
    + exfalso. apply (H3 []). auto.
    + simpl in H1. tauto.
  - rewrite relaxed_line_cons2, IH. destruct (wsp c) eqn:E; auto.
    apply wsp_cases in E. destruct E; subst; [|simpl in H1; tauto].
    destruct (forallb wsp (d :: l)) eqn:Ef.
    + destruct (wsp d) eqn:Ed; [|simpl in Ef; rewrite Ed in Ef; discriminate].
      apply wsp_cases in Ed. destruct Ed; subst; [|simpl in H1; tauto].
      exfalso. apply (H2 [] l). auto.
    + destruct (wsp d) eqn:Ed; auto. apply wsp_cases in Ed.
      destruct Ed; subst; [|simpl in H1; tauto]. exfalso. apply (H2 [] l). auto.
Qed.

Lemma nc_snoc_cr : forall l, nc l = true -> nc (l ++ [13]) = true.
Proof. intros. apply nc_snoc; auto. easy. Qed.

Lemma relaxed_line_last_cr : forall l a, relaxed_line l = a ++ [13] -> ends_wsp l = true \/ exists b, l = b ++ [13].
Proof.
  intros l a H. destruct (snoc_cases _ l) as [->|(l' & c & ->)].
  - destruct a; discriminate.
  - destruct (wsp c) eqn:E.
    + left. rewrite ends_wsp_snoc. auto.
    + right. rewrite relaxed_line_snoc in H by auto.
      assert (c = 13); [|subst; eauto].
      destruct (ends_wsp l').
      * change [32; c] with ([32] ++ [c]) in H. rewrite app_assoc in H.
        apply app_inj_tail in H. tauto.
      * apply app_inj_tail in H. tauto.
Qed.

Lemma relaxed_line_nc : forall l, nc l = true -> nc (relaxed_line l) = true.
Proof.
  induction l as [|c l IH] using rev_ind; intros H; auto.
  pose proof (nc_app_l _ _ H) as Hl. specialize (IH Hl).
  destruct (wsp c) eqn:E.
  - rewrite relaxed_line_snoc_wsp by auto. auto.
  - rewrite relaxed_line_snoc by auto. destruct (ends_wsp l) eqn:Ew.
    + change [32; c] with ([32] ++ [c]). rewrite app_assoc.
      apply nc_snoc.
      * apply nc_snoc; auto. easy.
      * intros l' H1. apply app_inj_tail in H1. destruct H1. discriminate.
    + apply nc_snoc; auto. intros l' H1 ->.
      apply relaxed_line_last_cr in H1. destruct H1 as [H1|(b & ->)]; [congruence|].
      clear -H. rewrite <- app_assoc in H. induction b as [|x b IH]; [discriminate|].
      apply IH. simpl in H. destruct (b ++ [13; 10]) eqn:E; [destruct b; discriminate|].
      change (b ++ [13] ++ [10]) with (b ++ [13; 10]) in *.
      apply andb_true_iff in H. rewrite E. apply H.
Qed.

(** ** The lines of a canonical body *)

Lemma dte_incl : forall ls x, In x (drop_trailing_empty ls) -> In x ls.
Proof.
  induction ls as [|l ls IH]; simpl; intros x H; auto.
  destruct (drop_trailing_empty ls) eqn:E.
  - destruct l; [destruct H|]. destruct H as [H|[]]. auto.
  - destruct H as [H|H]; auto.
Qed.

Lemma dte_last : forall ls a x, drop_trailing_empty ls = a ++ [x] -> x <> [].
Proof.
  induction ls as [|y ls IH] using rev_ind; intros a x E.
  - destruct a; discriminate.
  - rewrite dte_snoc in E. destruct y.
    + eapply IH. eauto.
    + apply app_inj_tail in E. destruct E. subst. easy.
Qed.

Lemma dte_idem : forall ls, drop_trailing_empty (drop_trailing_empty ls) = drop_trailing_empty ls.
Proof.
  intros. destruct (snoc_cases _ (drop_trailing_empty ls)) as [->|(a & x & E)]; auto.
  rewrite E, dte_snoc. apply dte_last in E. destruct x; [congruence|auto].
Qed.

Lemma rfc_relaxed_lines : forall body, exists ls,
  rfc_relaxed_body body = terminate ls
  /\ Forall (fun l => nc l = true) ls /\ Forall clean_line ls
  /\ drop_trailing_empty ls = ls.
Proof.
  intros. destruct (body_lines body) as (ls & l & -> & H1 & H2).
  exists (drop_trailing_empty (map relaxed_line (ls ++ [l]))).
  unfold rfc_relaxed_body. rewrite lines_terminate by auto. split; auto.
  assert (forall x, In x (drop_trailing_empty (map relaxed_line (ls ++ [l]))) ->
    exists y, x = relaxed_line y /\ nc y = true) as X.
  { intros x Hx. apply dte_incl in Hx. apply in_map_iff in Hx. destruct Hx as (y & <- & Hy).
    exists y. split; auto. apply in_app_iff in Hy. destruct Hy as [Hy|[<-|[]]]; auto.
    rewrite Forall_forall in H1. auto. }
  split; [|split].
  - apply Forall_forall. intros x Hx. destruct (X x Hx) as (y & -> & Hy). apply relaxed_line_nc. auto.
  - apply Forall_forall. intros x Hx. destruct (X x Hx) as (y & -> & Hy). apply relaxed_line_clean.
  - apply dte_idem.
Qed.

Lemma lines_terminated : forall ls, Forall (fun l => nc l = true) ls -> lines (terminate ls) = ls ++ [[]].
Proof. intros. rewrite <- (app_nil_r (terminate ls)). apply lines_terminate; auto. Qed.

Lemma clean_nil : clean_line [].
Proof. split; [easy|]. split; intros [|]; easy. Qed.

Theorem relaxed_body_clean : forall chunks out,
  canonicalize_body Relaxed chunks = Val out -> Forall clean_line (lines out).
Proof.
  intros chunks out H. rewrite relaxed_body_spec in H. inv H.
  destruct (rfc_relaxed_lines (concat chunks)) as (ls & H1 & H2 & H3 & H4).
  unfold impl_relaxed_body. rewrite H1. destruct (ends_in_wsp_line (concat chunks)).
  - change [13; 10] with (terminate [[]]). rewrite <- terminate_app.
    rewrite lines_terminated.
    + repeat (apply Forall_app; split; auto). all: constructor; auto using clean_nil.
    + apply Forall_app. auto.
  - rewrite lines_terminated by auto. apply Forall_app. split; auto.
    constructor; auto using clean_nil.
Qed.

Lemma terminate_end : forall ls, terminate ls = [] \/ ends_in_crlf (terminate ls).
Proof.
  intros. destruct (snoc_cases _ ls) as [->|(a & x & ->)]; auto. right.
  rewrite terminate_app, terminate_one. eexists. rewrite app_assoc. reflexivity.
Qed.

Theorem body_end : forall alg chunks out,
  canonicalize_body alg chunks = Val out -> out = [] \/ ends_in_crlf out.
Proof.
  intros alg chunks out H. destruct alg.
  - rewrite simple_body_spec in H. inv H. unfold impl_simple_body.
    destruct (only_crlfs _); auto. right. eexists. reflexivity.
  - rewrite relaxed_body_spec in H. inv H. unfold impl_relaxed_body.
    destruct (ends_in_wsp_line _); [right; eexists; reflexivity|].
    apply terminate_end.
Qed.

Lemma strip_end : forall s a, strip_trailing_crlfs s <> a ++ [13; 10].
Proof.
  intros s a H. assert (rev (strip_trailing_crlfs s) = strip_rev (rev s)) as X
    by (unfold strip_trailing_crlfs; apply rev_involutive).
  rewrite H in X. rewrite rev_app_distr in X. simpl in X.
  remember (rev s) as t. clear -X. revert a X.
  remember (length t) as n. revert t Heqn.
  induction n as [n IH] using (well_founded_induction Wf_nat.lt_wf). intros t -> a X.
  destruct t as [|c [|d t]]; simpl in X; try discriminate.
  destruct ((c =? 10) && (d =? 13)) eqn:E.
  - eapply IH; [|reflexivity|eauto]. simpl. lia.
  - inv X. discriminate.
Qed.

Lemma strip_idem : forall s, strip_trailing_crlfs (strip_trailing_crlfs s) = strip_trailing_crlfs s.
Proof.
  intros. destruct (snoc_cases _ (strip_trailing_crlfs s)) as [->|(a & x & E)]; auto.
  destruct (snoc_cases _ a) as [->|(b & y & ->)]; [rewrite E; reflexivity|].
  rewrite E, <- app_assoc. simpl. apply strip_crlf_nop2. intros [-> ->].
  rewrite <- app_assoc in E. eapply strip_end. eauto.
Qed.

(** Simple canonical bodies end in an empty line only for the empty body. *)
Theorem simple_body_no_empty_end : forall chunks out,
  canonicalize_body Simple chunks = Val out ->
  concat chunks <> [] -> ~ ends_in_empty_line out.
Proof.
  intros chunks out H Hne. rewrite simple_body_spec in H. inv H.
  unfold impl_simple_body, only_crlfs, rfc_simple_body.
  replace (is_nil (concat chunks)) with false by (symmetry; apply is_nil_false; auto). simpl.
  intros [H|(a & H)]; destruct (is_nil (strip_trailing_crlfs (concat chunks))) eqn:E;
    try (destruct a; discriminate); try discriminate.
  - apply is_nil_false in E. apply (app_inv_tail [13; 10] _ []) in H. auto.
  - change [13; 10; 13; 10] with ([13; 10] ++ [13; 10]) in H.
    rewrite app_assoc in H. apply app_inv_tail in H. eapply strip_end. eauto.
Qed.

Lemma terminate_double : forall ls a, Forall (fun l => nc l = true) ls ->
  drop_trailing_empty ls = ls ->
  terminate ls <> a ++ [13; 10; 13; 10] /\ terminate ls <> [13; 10].
Proof.
  intros ls a H1 H2. destruct (snoc_cases _ ls) as [->|(b & x & ->)].
  { split; [destruct a|]; discriminate. }
  assert (x <> []) as Hx by (eapply dte_last; eauto).
  rewrite terminate_app, terminate_one. apply Forall_app in H1. destruct H1 as [H1 H3]. inv H3.
  split; intros H; rewrite app_assoc in H.
  - change [13; 10; 13; 10] with ([13; 10] ++ [13; 10]) in H.
    rewrite (app_assoc a) in H. apply app_inv_tail in H.
    pose proof (strip_nonempty_line b x) as S. rewrite H in S. rewrite strip_crlf_snoc in S.
    specialize (S H4 Hx H1). apply (strip_end a a). exact S.
  - apply (app_inv_tail [13; 10] _ []) in H.
    destruct x; [congruence|]. destruct (terminate b); discriminate.
Qed.

Lemma crlf_snoc_inj : forall a b : list N, a ++ [13; 10] = b ++ [13; 10; 13; 10] -> a = b ++ [13; 10].
Proof.
  intros a b H. change [13; 10; 13; 10] with ([13; 10] ++ [13; 10]) in H.
  rewrite app_assoc in H. apply app_inv_tail in H. auto.
Qed.

(** Relaxed canonical bodies end in an empty line exactly in the corner case. *)
Theorem relaxed_body_empty_end : forall chunks out,
  canonicalize_body Relaxed chunks = Val out ->
  (ends_in_empty_line out <-> ends_in_wsp_line (concat chunks) = true).
Proof.
  intros chunks out H. rewrite relaxed_body_spec in H. inv H.
  destruct (rfc_relaxed_lines (concat chunks)) as (ls & H1 & H2 & H3 & H4).
  unfold impl_relaxed_body. rewrite H1. destruct (ends_in_wsp_line (concat chunks)); split; auto.
  - intros _. destruct (terminate_end ls) as [->|(a & ->)].
    + left. auto.
    + right. exists a. rewrite <- app_assoc. auto.
  - intros [H|(a & H)].
    + apply terminate_double with (a := []) in H4; auto. tauto.
    + apply terminate_double with (a := a) in H4; auto. tauto.
  - discriminate.
Qed.

(** ** Idempotence *)

Theorem simple_idempotent : forall chunks out,
  canonicalize_body Simple chunks = Val out ->
  (canonicalize_body Simple [out] = Val out <-> strip_trailing_crlfs (concat chunks) <> []).
Proof.
  intros chunks out H. rewrite simple_body_spec in H. injection H as <-.
  rewrite simple_body_spec. simpl. rewrite app_nil_r. set (b := concat chunks).
  unfold impl_simple_body. unfold only_crlfs.
  destruct (is_nil (strip_trailing_crlfs b)) eqn:E.
  - apply is_nil_true in E. rewrite E. split; [|congruence]. intros H.
    exfalso. unfold rfc_simple_body in H. rewrite E in H. simpl in H.
    destruct b; simpl in H; vm_compute in H; discriminate.
  - split; [intros _; apply is_nil_false; auto|]. intros _.
    rewrite andb_false_r. unfold rfc_simple_body. rewrite strip_crlf_snoc, strip_idem, E.
    rewrite andb_false_r. auto.
Qed.

Lemma relaxed_of_terminated : forall ls,
  Forall (fun l => nc l = true) ls -> Forall clean_line ls ->
  impl_relaxed_body (terminate ls) = terminate (drop_trailing_empty ls).
Proof.
  intros ls H1 H2. unfold impl_relaxed_body, ends_in_wsp_line, rfc_relaxed_body.
  rewrite lines_terminated by auto. rewrite last_last. simpl. rewrite map_app. simpl.
  rewrite dte_snoc. replace (map relaxed_line ls) with ls; auto.
  rewrite <- map_id at 1. apply map_ext_in. intros l Hl. symmetry. apply clean_line_relaxed.
  rewrite Forall_forall in H2. auto.
Qed.

Theorem relaxed_idempotent : forall chunks out,
  canonicalize_body Relaxed chunks = Val out ->
  (canonicalize_body Relaxed [out] = Val out <-> ends_in_wsp_line (concat chunks) = false).
Proof.
  intros chunks out H. rewrite relaxed_body_spec in H. injection H as <-.
  rewrite relaxed_body_spec. simpl. rewrite app_nil_r.
  destruct (rfc_relaxed_lines (concat chunks)) as (ls & H1 & H2 & H3 & H4).
  unfold impl_relaxed_body at 2 3. rewrite H1. destruct (ends_in_wsp_line (concat chunks)).
  - split; [|discriminate]. intros H.
    change [13; 10] with (terminate [[]]) in H. rewrite <- terminate_app in H.
    rewrite relaxed_of_terminated in H.
    + rewrite dte_snoc, H4 in H. injection H as H. rewrite terminate_app in H.
      apply (f_equal (@length N)) in H. rewrite app_length in H. simpl in H. lia.
    + apply Forall_app. auto.
    + apply Forall_app. split; auto. constructor; auto using clean_nil.
  - split; auto. intros _. rewrite relaxed_of_terminated by auto. rewrite H4. auto.
Qed.
