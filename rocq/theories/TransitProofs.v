(** Lemmas for C56: changes in transit. *)

From Coq Require Import String List.
From Verif Require Import Base Utf8 Canon BodyHash Header Domain Signature KeyRecord Crypto Sign Verify
  SpecText SpecCanon SpecHash SpecHeader SpecTag SpecSig SpecRecord SpecSign SpecVerify SpecOutput SpecEnd SpecTransit
  CanonProofs CanonShape HeaderCanonProofs VerifyProofs VerifyFacts PolicyProofs EndProofs Lib.
Import ListNotations.
Open Scope N_scope.

(** ** Bodies *)

Lemma relaxed_line_run : forall l v w x, v <> [] -> w <> [] -> forallb wsp v = true -> forallb wsp w = true ->
  relaxed_line (l ++ v ++ x) = relaxed_line (l ++ w ++ x).
Proof.
  assert (forall v x, v <> [] -> forallb wsp v = true -> relaxed_line (v ++ x) = relaxed_line (32 :: x)) as X.
  { induction v as [|c v IH]; intros x N W; [contradiction|]. cbn [forallb] in W. apply andb_prop in W as [Wc W].
    destruct v as [|d v].
    - cbn [app relaxed_line]. rewrite Wc. change (wsp 32) with true. reflexivity.
    - assert (wsp d = true) as Wd by (cbn [forallb] in W; apply andb_prop in W; tauto).
      specialize (IH x ltac:(discriminate) W). rewrite <- IH. cbn [app]. rewrite relaxed_line_cons2, Wc.
      destruct (forallb wsp (d :: v ++ x)) eqn:F; [|rewrite Wd; reflexivity].
      symmetry. apply relaxed_line_blank. exact F. }
  intros l v w x Nv Nw Wv Ww. induction l as [|c l IH]; cbn [app].
  - rewrite X, (X w) by assumption. reflexivity.
  - cbn [relaxed_line]. rewrite IH. assert (forallb wsp (l ++ v ++ x) = forallb wsp (l ++ w ++ x)) as -> by (rewrite !forallb_app, Wv, Ww; reflexivity).
    destruct (wsp c); [|reflexivity]. destruct (forallb wsp (l ++ w ++ x)); [reflexivity|]. destruct l as [|d l].
    + destruct v as [|d v]; [contradiction|]. destruct w as [|e w]; [contradiction|]. cbn [app forallb] in *.
      apply andb_prop in Wv as [-> _]. apply andb_prop in Ww as [-> _]. reflexivity.
    + reflexivity.
Qed.

Lemma relaxed_line_trailing : forall v l, forallb wsp v = true -> relaxed_line (l ++ v) = relaxed_line l.
Proof.
  intros v l. induction v as [|c v IH] using rev_ind; intros H; [rewrite app_nil_r; reflexivity|].
  rewrite forallb_app in H. apply andb_prop in H as [H1 H2]. cbn in H2. rewrite app_assoc, relaxed_line_snoc_wsp; [apply IH; exact H1|].
  destruct (wsp c); [reflexivity|discriminate].
Qed.

Lemma nc_wsp : forall v, forallb wsp v = true -> forall l x, v <> [] -> nc l = true -> nc x = true -> nc (l ++ v ++ x) = true.
Proof.
  assert (forall c l, wsp c = true -> nc (c :: l) = nc l) as Y.
  { intros c l H. apply wsp_neq in H as [H _]. destruct l; [reflexivity|]. apply N.eqb_neq in H. cbn [nc]. rewrite H. reflexivity. }
  assert (forall v x, forallb wsp v = true -> nc x = true -> nc (v ++ x) = true) as X.
  { induction v as [|c v IH]; intros x W Nx; [exact Nx|]. cbn [forallb] in W. apply andb_prop in W as [Wc W]. cbn [app]. rewrite Y by assumption. auto. }
  intros v W l x Nv. induction l as [|c l IH]; intros Nl Nx; [exact (X v x W Nx)|]. cbn [app].
  destruct l as [|d l].
  - destruct v as [|e v]; [contradiction|]. cbn [app forallb] in *. apply andb_prop in W as [We W]. pose proof (X (e :: v) x) as Z.
    cbn [forallb app] in Z. rewrite We, W in Z. specialize (Z eq_refl Nx). apply wsp_neq in We as [_ We]. apply N.eqb_neq in We.
    cbn [nc]. rewrite We, Bool.andb_false_r. cbn [negb andb]. exact Z.
  - cbn [app] in *. cbn [nc] in Nl |- *. destruct ((c =? 13) && (d =? 10)); [discriminate|]. cbn [negb andb] in *. apply IH; assumption.
Qed.

(** the canonical form, line by line *)
Lemma relaxed_of_lines : forall ls l, Forall (fun l => nc l = true) ls -> nc l = true ->
  canonical_body Relaxed (terminate ls ++ l)
  = terminate (drop_trailing_empty (map relaxed_line (ls ++ [l]))) ++ (if negb (is_nil l) && forallb wsp l then [13; 10] else []).
Proof.
  intros ls l H1 H2. cbn [canonical_body]. unfold impl_relaxed_body, ends_in_wsp_line, rfc_relaxed_body.
  rewrite lines_terminate by assumption. rewrite last_last. destruct (negb (is_nil l) && forallb wsp l); [reflexivity|rewrite app_nil_r; reflexivity].
Qed.

(** text within a body: the line it is in, and the lines before and after *)
Lemma in_context : forall a c, exists la l, Forall (fun l => nc l = true) la /\ nc l = true /\
  ((exists m, nc m = true /\ forall t, a ++ t ++ c = terminate la ++ (l ++ t ++ m))
   \/ exists m lc e, nc m = true /\ Forall (fun l => nc l = true) lc /\ nc e = true
        /\ forall t, a ++ t ++ c = terminate la ++ (l ++ t ++ m) ++ [13; 10] ++ terminate lc ++ e).
Proof.
  intros a c. destruct (body_lines a) as (la & l & -> & F1 & F2). destruct (body_lines c) as (lc & e & -> & G1 & G2).
  exists la, l. split; [exact F1|]. split; [exact F2|]. destruct lc as [|m lc].
  - left. exists e. split; [exact G2|]. intros t. cbn [terminate map concat app]. rewrite <- !app_assoc. reflexivity.
  - right. inversion G1; subst. exists m, lc, e. split; [assumption|]. split; [assumption|]. split; [assumption|].
    intros t. change (terminate (m :: lc)) with ((m ++ [13; 10]) ++ terminate lc). rewrite <- !app_assoc. reflexivity.
Qed.

Lemma terminate_mid : forall la x lc e, terminate la ++ x ++ [13; 10] ++ terminate lc ++ e = terminate (la ++ x :: lc) ++ e.
Proof.
  intros. rewrite terminate_app. change (terminate (x :: lc)) with ((x ++ [13; 10]) ++ terminate lc). rewrite <- !app_assoc. reflexivity.
Qed.

Lemma same_blanks : forall a v w c, v <> [] -> w <> [] -> forallb wsp v = true -> forallb wsp w = true ->
  canonical_body Relaxed (a ++ v ++ c) = canonical_body Relaxed (a ++ w ++ c).
Proof.
  intros a v w c Nv Nw Wv Ww. destruct (in_context a c) as (la & l & F1 & F2 & [(m & M & X)|(m & lc & e & M & G1 & G2 & X)]); rewrite !X.
  - rewrite !relaxed_of_lines by (auto; apply nc_wsp; assumption). rewrite !map_app. cbn [map]. rewrite (relaxed_line_run l v w m) by assumption.
    rewrite !forallb_app, Wv, Ww. destruct l, v, w; reflexivity || contradiction.
  - rewrite !terminate_mid. assert (forall t, t <> [] -> forallb wsp t = true -> Forall (fun l => nc l = true) (la ++ (l ++ t ++ m) :: lc)) as Y.
    { intros t Nt Wt. apply Forall_app. split; [exact F1|]. constructor; [apply nc_wsp; assumption|exact G1]. }
    rewrite !relaxed_of_lines by auto. rewrite !map_app. cbn [map app]. rewrite (relaxed_line_run l v w m) by assumption. reflexivity.
Qed.

Lemma same_line_end : forall a v c, forallb wsp v = true ->
  canonical_body Relaxed (a ++ v ++ [13; 10] ++ c) = canonical_body Relaxed (a ++ [13; 10] ++ c).
Proof.
  intros a v c W. destruct (body_lines a) as (la & l & -> & F1 & F2). destruct (body_lines c) as (lc & e & -> & G1 & G2).
  replace ((terminate la ++ l) ++ v ++ [13; 10] ++ terminate lc ++ e) with (terminate (la ++ (l ++ v) :: lc) ++ e)
    by (rewrite <- terminate_mid, <- !app_assoc; reflexivity).
  replace ((terminate la ++ l) ++ [13; 10] ++ terminate lc ++ e) with (terminate (la ++ l :: lc) ++ e)
    by (rewrite <- terminate_mid, <- !app_assoc; reflexivity).
  assert (nc (l ++ v) = true) as Nl.
  { destruct v as [|x v]; [rewrite app_nil_r; exact F2|]. pose proof (nc_wsp (x :: v) W l []) as Y. rewrite app_nil_r in Y. apply Y; [discriminate|exact F2|reflexivity]. }
  rewrite !relaxed_of_lines; try assumption; try (apply Forall_app; split; [|constructor]; assumption).
  rewrite !map_app. cbn [map app]. rewrite relaxed_line_trailing by assumption. reflexivity.
Qed.

Lemma same_crlf : forall alg b, (alg = Simple -> b <> []) -> (alg = Relaxed -> ends_in_wsp_line b = false) ->
  canonical_body alg b = canonical_body alg (b ++ [13; 10]).
Proof.
  intros [] b H1 H2.
  - specialize (H1 eq_refl). cbn [canonical_body]. unfold impl_simple_body, only_crlfs, rfc_simple_body. rewrite strip_crlf_snoc.
    assert (forall x y : list byte, x <> [] -> is_nil (x ++ y) = false) as X by (intros [|] y N; [contradiction|reflexivity]).
    rewrite X by assumption. pose proof (X b [] H1) as Y. rewrite app_nil_r in Y. rewrite Y. reflexivity.
  - specialize (H2 eq_refl). destruct (body_lines b) as (lb & l & -> & F1 & F2). unfold ends_in_wsp_line in H2.
    rewrite lines_terminate, last_last in H2 by assumption.
    replace ((terminate lb ++ l) ++ [13; 10]) with (terminate (lb ++ [l]) ++ []) by (rewrite terminate_app, terminate_one, app_nil_r, app_assoc; reflexivity).
    rewrite relaxed_of_lines by assumption. rewrite H2. rewrite relaxed_of_lines by (try apply Forall_app; auto).
    rewrite (map_app relaxed_line (lb ++ [l]) [[]]). cbn [map relaxed_line]. rewrite dte_snoc. reflexivity.
Qed.

Lemma terminated : forall b : list byte, b = [] \/ (exists a, b = a ++ [13; 10]) -> exists ls, b = terminate ls /\ Forall (fun l => nc l = true) ls.
Proof.
  intros b [->|(a & ->)]; [exists []; split; [reflexivity|constructor]|]. destruct (body_lines a) as (la & l & -> & F1 & F2).
  exists (la ++ [l]). split; [rewrite terminate_app, terminate_one, <- app_assoc; reflexivity|]. apply Forall_app. auto.
Qed.

Lemma wsp_nc : forall v, forallb wsp v = true -> nc v = true.
Proof. intros [|x v] H; [reflexivity|]. pose proof (nc_wsp (x :: v) H [] []) as X. rewrite app_nil_r in X. apply X; [discriminate|reflexivity|reflexivity]. Qed.

Lemma last_wsp : forall ls v, Forall (fun l => nc l = true) ls -> v <> [] -> forallb wsp v = true ->
  canonical_body Relaxed (terminate ls ++ v) = terminate (drop_trailing_empty (map relaxed_line ls)) ++ [13; 10].
Proof.
  intros ls v F N W. rewrite relaxed_of_lines by (auto using wsp_nc). rewrite W. destruct v as [|x v]; [contradiction|]. cbn [is_nil negb andb].
  rewrite map_app. cbn [map]. rewrite (proj2 (relaxed_line_blank (x :: v)) W), dte_snoc. reflexivity.
Qed.

Lemma same_last : forall b v : list byte, b = [] \/ (exists a, b = a ++ [13; 10]) -> v <> [] -> forallb wsp v = true ->
  canonical_body Relaxed (b ++ v) = canonical_body Relaxed (b ++ [13; 10] ++ v).
Proof.
  intros b v B N W. destruct (terminated b B) as (ls & -> & F). rewrite app_assoc.
  change [13; 10] with ([] ++ [13; 10]) at 1. rewrite <- (terminate_one []), <- terminate_app.
  rewrite !last_wsp; try assumption; [|apply Forall_app; split; [exact F|constructor; [reflexivity|constructor]]].
  rewrite map_app. cbn [map relaxed_line]. rewrite dte_snoc. reflexivity.
Qed.

Theorem same_body_canonical : forall alg b b', same_body alg b b' -> canonical_body alg b = canonical_body alg b'.
Proof.
  induction 1; subst.
  - apply same_crlf; assumption.
  - apply same_blanks; assumption.
  - apply same_line_end; assumption.
  - apply same_last; assumption.
  - reflexivity.
  - congruence.
  - congruence.
Qed.

(** Conversely *)
Lemma to_relaxed_line : forall l a c, same_body Relaxed (a ++ l ++ [13; 10] ++ c) (a ++ relaxed_line l ++ [13; 10] ++ c).
Proof.
  induction l as [|x l IH]; intros a c; [apply sb_refl|]. cbn [relaxed_line]. destruct (wsp x) eqn:W.
  - destruct (forallb wsp l) eqn:F.
    + apply (sb_line_end Relaxed a (x :: l) c); [reflexivity|]. cbn [forallb]. rewrite W. exact F.
    + destruct l as [|d l]; [discriminate F|]. destruct (wsp d) eqn:Wd.
      * eapply sb_trans; [|apply IH]. apply (sb_blanks Relaxed a [x; d] [d] (l ++ [13; 10] ++ c)); try reflexivity; try discriminate; cbn; rewrite ?W, ?Wd; reflexivity.
      * specialize (IH (a ++ [32]) c). rewrite <- !app_assoc in IH. eapply sb_trans; [|exact IH].
        apply (sb_blanks Relaxed a [x] [32] ((d :: l) ++ [13; 10] ++ c)); try reflexivity; try discriminate. cbn. rewrite W. reflexivity.
  - specialize (IH (a ++ [x]) c). rewrite <- !app_assoc in IH. exact IH.
Qed.

Lemma to_relaxed_lines_before : forall ls a c, same_body Relaxed (a ++ terminate ls ++ c) (a ++ terminate (map relaxed_line ls) ++ c).
Proof.
  induction ls as [|l ls IH]; intros a c; [apply sb_refl|]. cbn [map].
  change (terminate (l :: ls)) with ((l ++ [13; 10]) ++ terminate ls).
  change (terminate (relaxed_line l :: map relaxed_line ls)) with ((relaxed_line l ++ [13; 10]) ++ terminate (map relaxed_line ls)).
  rewrite <- !app_assoc. eapply sb_trans; [apply to_relaxed_line|]. specialize (IH (a ++ relaxed_line l ++ [13; 10]) c). rewrite <- !app_assoc in IH. exact IH.
Qed.

Lemma to_relaxed_lines : forall ls a, same_body Relaxed (a ++ terminate ls) (a ++ terminate (map relaxed_line ls)).
Proof. intros ls a. pose proof (to_relaxed_lines_before ls a []) as H. rewrite !app_nil_r in H. exact H. Qed.

Lemma terminated_no_wsp : forall ls, Forall (fun l => nc l = true) ls -> ends_in_wsp_line (terminate ls) = false.
Proof.
  intros ls H. unfold ends_in_wsp_line. rewrite <- (app_nil_r (terminate ls)). rewrite lines_terminate by auto. rewrite last_last. reflexivity.
Qed.

Lemma to_dte : forall ls, Forall (fun l => nc l = true) ls -> same_body Relaxed (terminate ls) (terminate (drop_trailing_empty ls)).
Proof.
  induction ls as [|l ls IH] using rev_ind; intros H; [apply sb_refl|]. apply Forall_app in H as [H1 H2]. inversion H2; subst. rewrite dte_snoc.
  destruct l as [|x l]; [|apply sb_refl]. eapply sb_trans; [|apply IH; assumption]. rewrite terminate_app, terminate_one. apply sb_sym.
  apply sb_crlf; [discriminate|]. intros _. apply terminated_no_wsp. assumption.
Qed.

Lemma to_relaxed : forall b, ends_in_wsp_line b = false -> same_body Relaxed b (canonical_body Relaxed b).
Proof.
  intros b H. destruct (body_lines b) as (lb & l & -> & F1 & F2). rewrite relaxed_of_lines by assumption. pose proof H as H'. unfold ends_in_wsp_line in H'.
  rewrite lines_terminate, last_last in H' by assumption. rewrite H', app_nil_r.
  eapply sb_trans; [apply sb_crlf; [discriminate|intros _; exact H]|].
  replace ((terminate lb ++ l) ++ [13; 10]) with (terminate (lb ++ [l])) by (rewrite terminate_app, terminate_one, app_assoc; reflexivity).
  eapply sb_trans; [apply (to_relaxed_lines _ [])|]. cbn [app]. apply to_dte. apply Forall_map. apply Forall_app. split.
  - eapply Forall_impl; [|exact F1]. apply relaxed_line_nc.
  - constructor; [apply relaxed_line_nc; exact F2|constructor].
Qed.

Lemma strip_cases : forall b, strip_trailing_crlfs b = b \/ exists a, b = a ++ [13; 10].
Proof.
  intros b. destruct b as [|x b _] using rev_ind; [left; reflexivity|]. destruct b as [|y b _] using rev_ind; [left; apply strip_crlf_one|].
  destruct (N.eq_dec y 13) as [->|Y]; [destruct (N.eq_dec x 10) as [->|X]|].
  - right. exists b. rewrite <- app_assoc. reflexivity.
  - left. apply strip_crlf_nop. exact X.
  - left. rewrite <- app_assoc. apply strip_crlf_nop2. tauto.
Qed.

Lemma to_simple : forall b, b <> [] -> same_body Simple b (strip_trailing_crlfs b ++ [13; 10]).
Proof.
  intros b. remember (length b) as n eqn:L. revert b L. induction n as [n IH] using lt_wf_ind. intros b L N.
  destruct (strip_cases b) as [S|(a & ->)].
  - rewrite S. apply sb_crlf; [auto|discriminate].
  - rewrite strip_crlf_snoc. destruct a as [|x a].
    + apply sb_refl.
    + eapply sb_trans; [apply sb_sym; apply sb_crlf; [discriminate|discriminate]|].
      eapply IH; [|reflexivity|discriminate]. rewrite L, app_length. cbn [length]. lia.
Qed.

Lemma dte_forall : forall (P : list byte -> Prop) ls, Forall P ls -> Forall P (drop_trailing_empty ls).
Proof. intros P ls H. rewrite Forall_forall in *. intros x X. apply H. apply dte_incl. exact X. Qed.

Lemma terminate_ended : forall ls : list (list byte), terminate ls = [] \/ exists a, terminate ls = a ++ [13; 10].
Proof.
  intros ls. destruct ls as [|l ls _] using rev_ind; [left; reflexivity|right]. exists (terminate ls ++ l). rewrite terminate_app, terminate_one, <- app_assoc. reflexivity.
Qed.

Lemma to_dte_last : forall ls v, Forall (fun l => nc l = true) ls -> v <> [] -> forallb wsp v = true ->
  same_body Relaxed (terminate ls ++ v) (terminate (drop_trailing_empty ls) ++ v).
Proof.
  induction ls as [|l ls IH] using rev_ind; intros v H N W; [apply sb_refl|]. apply Forall_app in H as [H1 H2]. rewrite dte_snoc.
  destruct l as [|x l]; [|apply sb_refl]. eapply sb_trans; [|apply IH; assumption]. rewrite terminate_app, terminate_one, <- app_assoc. apply sb_sym.
  apply sb_last; [reflexivity|apply terminate_ended|exact N|exact W].
Qed.

(** a body with whitespace after the last line break: what is left of the lines before *)
Lemma to_relaxed_last : forall b, ends_in_wsp_line b = true -> exists ls, Forall (fun l => nc l = true) ls /\ drop_trailing_empty ls = ls
  /\ same_body Relaxed b (terminate ls ++ [32]) /\ canonical_body Relaxed b = terminate ls ++ [13; 10].
Proof.
  intros b H. destruct (body_lines b) as (lb & l & -> & F1 & F2). pose proof H as H'. unfold ends_in_wsp_line in H'.
  rewrite lines_terminate, last_last in H' by assumption. apply andb_prop in H' as [N W].
  assert (l <> []) as Nl by (destruct l; discriminate).
  exists (drop_trailing_empty (map relaxed_line lb)). split; [|split; [|split]].
  - apply dte_forall. apply Forall_map. eapply Forall_impl; [|exact F1]. apply relaxed_line_nc.
  - apply dte_idem.
  - rewrite <- (app_nil_r l) at 1. eapply sb_trans; [apply (sb_blanks Relaxed (terminate lb) l [32] []); try reflexivity; try assumption; discriminate|]. cbn [app].
    eapply sb_trans; [apply (to_relaxed_lines_before lb [] [32])|]. cbn [app]. apply to_dte_last; [|discriminate|reflexivity].
    apply Forall_map. eapply Forall_impl; [|exact F1]. apply relaxed_line_nc.
  - apply last_wsp; assumption.
Qed.

Lemma canonical_last : forall b b', ends_in_wsp_line b = true -> ends_in_wsp_line b' = false -> canonical_body Relaxed b <> canonical_body Relaxed b'.
Proof.
  intros b b' H H' X. destruct (to_relaxed_last b H) as (ls & F & _ & _ & C). rewrite C in X. clear C.
  destruct (body_lines b') as (lb & l & -> & F1 & F2). rewrite relaxed_of_lines in X by assumption. unfold ends_in_wsp_line in H'.
  rewrite lines_terminate, last_last in H' by assumption. rewrite H', app_nil_r in X.
  change [13; 10] with ([] ++ [13; 10]) in X. rewrite <- (terminate_one []), <- terminate_app in X. apply (f_equal lines) in X.
  set (D := drop_trailing_empty (map relaxed_line (lb ++ [l]))) in *.
  assert (Forall (fun l => nc l = true) D) as FD.
  { apply dte_forall. apply Forall_map. apply Forall_app. split; [eapply Forall_impl; [|exact F1]; apply relaxed_line_nc|].
    constructor; [apply relaxed_line_nc; exact F2|constructor]. }
  rewrite <- (app_nil_r (terminate (ls ++ [[]]))), <- (app_nil_r (terminate D)) in X. rewrite !lines_terminate in X; auto.
  2: { apply Forall_app. split; [exact F|constructor; [reflexivity|constructor]]. }
  apply app_inj_tail in X as [X _]. assert (drop_trailing_empty D = D) as Y by apply dte_idem. rewrite <- X, dte_snoc in Y.
  pose proof (dte_length ls) as L. rewrite Y, app_length in L. cbn [length] in L. lia.
Qed.

Theorem canonical_same_body : forall alg b b',
  canonical_body alg b = canonical_body alg b' -> same_body alg b b'.
Proof.
  intros [] b b' H.
  - cbn [canonical_body] in H. unfold impl_simple_body, only_crlfs, rfc_simple_body in H.
    destruct b as [|x b], b' as [|x' b'].
    + apply sb_refl.
    + exfalso. cbn [is_nil negb andb] in H. destruct (strip_trailing_crlfs (x' :: b')); [discriminate H|].
      cbn [is_nil] in H. change (strip_trailing_crlfs []) with (@nil byte) in H. cbn [app] in H. apply (f_equal (@length _)) in H. cbn [length app] in H. rewrite app_length in H. cbn [length] in H. lia.
    + exfalso. cbn [is_nil negb andb] in H. destruct (strip_trailing_crlfs (x :: b)); [discriminate H|].
      cbn [is_nil] in H. change (strip_trailing_crlfs []) with (@nil byte) in H. cbn [app] in H. apply (f_equal (@length _)) in H. cbn [length app] in H. rewrite app_length in H. cbn [length] in H. lia.
    + eapply sb_trans; [apply to_simple; discriminate|]. apply sb_sym. eapply sb_trans; [apply to_simple; discriminate|].
      assert (strip_trailing_crlfs (x :: b) = strip_trailing_crlfs (x' :: b')) as ->; [|apply sb_refl].
      cbn [is_nil negb andb] in H. destruct (strip_trailing_crlfs (x :: b)), (strip_trailing_crlfs (x' :: b')); cbn [is_nil] in H; try reflexivity.
      * destruct l; discriminate H.
      * destruct l; discriminate H.
      * apply app_inv_tail in H. exact H.
  - destruct (ends_in_wsp_line b) eqn:W1, (ends_in_wsp_line b') eqn:W2.
    + destruct (to_relaxed_last b W1) as (ls & F & D & S & C). destruct (to_relaxed_last b' W2) as (ls' & F' & D' & S' & C').
      rewrite C, C' in H. apply app_inv_tail in H. eapply sb_trans; [exact S|]. rewrite H. apply sb_sym. exact S'.
    + exfalso. exact (canonical_last b b' W1 W2 H).
    + exfalso. exact (canonical_last b' b W2 W1 (eq_sym H)).
    + eapply sb_trans; [apply to_relaxed; exact W1|]. rewrite H. apply sb_sym. apply to_relaxed. exact W2.
Qed.

(** ** Header fields *)

Lemma same_field_canonical : forall alg f f', same_field alg f f' -> canonical_field alg f = canonical_field alg f'.
Proof.
  intros [] f f' H; cbn in H.
  - subst. reflexivity.
  - destruct H as [H1 H2]. cbn [canonical_field]. unfold rfc_relaxed_header. rewrite H1, H2. reflexivity.
Qed.

Lemma filter_rev : forall A (p : A -> bool) l, filter p (rev l) = rev (filter p l).
Proof.
  intros A p l. induction l as [|x l IH]; [reflexivity|]. cbn [rev filter]. rewrite filter_app, IH. cbn [filter].
  destruct (p x); [reflexivity|apply app_nil_r].
Qed.

Lemma Forall2_nth : forall A B (R : A -> B -> Prop) l l', Forall2 R l l' -> forall k,
  match nth_error l k, nth_error l' k with Some x, Some y => R x y | None, None => True | _, _ => False end.
Proof. induction 1; intros [|k]; cbn; auto. apply IHForall2. Qed.

Lemma Forall2_rev : forall A B (R : A -> B -> Prop) l l', Forall2 R l l' -> Forall2 R (rev l) (rev l').
Proof. induction 1; cbn [rev]; [constructor|]. apply Forall2_app; [assumption|]. constructor; [assumption|constructor]. Qed.

Lemma contributed_same : forall alg names before headers headers', same_fields alg names headers headers' ->
  map (canonical_field alg) (contributed headers before names) = map (canonical_field alg) (contributed headers' before names).
Proof.
  intros alg names. induction names as [|n names IH]; intros before headers headers' H; [reflexivity|]. cbn [contributed]. rewrite !map_app.
  rewrite (IH (before ++ [n]) headers headers') by (intros m Hm; apply H; right; exact Hm). f_equal.
  unfold kth_from_bottom. rewrite !filter_rev. pose proof (Forall2_nth _ _ _ _ _ (Forall2_rev _ _ _ _ _ (H n (or_introl eq_refl))) (S (occurrences n before) - 1)) as X.
  unfold named in X. destruct (nth_error (rev (filter _ headers)) _), (nth_error (rev (filter _ headers')) _); try contradiction; [|reflexivity].
  cbn [map]. f_equal. apply same_field_canonical. exact X.
Qed.

Lemma hash_input_same : forall alg names headers headers', same_fields alg names headers headers' ->
  header_hash_input alg headers names = header_hash_input alg headers' names.
Proof.
  intros alg names headers headers' H. unfold header_hash_input. pose proof (contributed_same alg names [] _ _ H) as X.
  rewrite <- (map_map (canonical_field alg) (fun b => b ++ [13; 10])), X, map_map. reflexivity.
Qed.

Lemma occurrences_named : forall n headers, occurrences n (map fst headers) = length (named n headers).
Proof.
  intros n headers. unfold occurrences, named. induction headers as [|f headers IH]; [reflexivity|]. cbn [map filter].
  destruct (same_nameb (fst f) n); cbn [length]; rewrite IH; reflexivity.
Qed.

(** ** Results *)

Section WithEnv.
Variable E : Env.

Lemma first_of_iff : forall A (l l' : list (Prop * A)) e, Forall2 (fun a b => (fst a <-> fst b) /\ snd a = snd b) l l' ->
  first_of l e -> first_of l' e.
Proof.
  intros A l l' e F H. revert l' F. induction H; intros l' F; inversion F; subst.
  - constructor.
  - destruct y as [Q b]. destruct H2 as [X1 X2]. cbn in *. subst. apply fo_here. tauto.
  - destruct y as [Q b]. destruct H3 as [X1 X2]. cbn in *. subst. apply fo_next; [tauto|auto].
Qed.

Section Similar.
Variables (config : Config) (headers headers' : list HeaderField) (sig : DkimSig) (name name' s : str).
Hypothesis occ : unsigned_occurrence headers config sig <-> unsigned_occurrence headers' config sig.
Hypothesis digest : signed_digest E headers sig name s = signed_digest E headers' sig name' s.

Lemma checks_same : forall now e, first_of (signature_checks E headers config now sig) e ->
  first_of (signature_checks E headers' config now sig) e.
Proof using occ.
  intros now e. apply first_of_iff. unfold signature_checks. 
  repeat match goal with |- Forall2 _ (_ :: _) _ => apply Forall2_cons; [split; [cbn [fst]; first [exact occ|apply iff_refl]|reflexivity]|] end. constructor.
Qed.

Lemma record_same : forall txt k e, record_outcome E headers config sig name s txt k e ->
  record_outcome E headers' config sig name' s txt k e.
Proof using digest.
  intros txt k e H. destruct H as [H|t e H1 H2|t r e H1 H2 H3].
  - apply ro_not_text; assumption.
  - eapply ro_format; eassumption.
  - eapply ro_record; try eassumption. revert H3. apply first_of_iff. unfold key_checks. rewrite digest.
    repeat match goal with |- Forall2 _ (_ :: _) _ => apply Forall2_cons; [split; [cbn [fst]; apply iff_refl|reflexivity]|] end. constructor.
Qed.

Lemma records_same : forall txts k e, records_outcome E headers config sig name s txts k e ->
  records_outcome E headers' config sig name' s txts k e.
Proof using digest.
  induction 1.
  - apply rs_success. apply record_same. assumption.
  - apply rs_last. apply record_same. assumption.
  - eapply rs_more; [assumption|apply record_same; eassumption|assumption].
Qed.
End Similar.

Lemma verdict_transit : forall answer headers headers' config now body body' i i' name name' value r s sig,
  signature_read E value s (Ok sig) ->
  (unsigned_occurrence headers config sig <-> unsigned_occurrence headers' config sig) ->
  signed_digest E headers sig name s = signed_digest E headers' sig name' s ->
  body_status E config sig body = body_status E config sig body' ->
  verdict E answer headers config now body i name value r -> verdict E answer headers' config now body' i' name' value (moved i' r).
Proof.
  intros answer headers headers' config now body body' i i' name name' value r s sig R O D B V.
  assert (forall s0 sg, signature_read E value s0 (Ok sg) -> s0 = s /\ sg = sig) as X.
  { intros s0 sg R'. destruct (signature_read_det _ _ _ _ _ _ R' R) as [-> Y]. injection Y. auto. }
  assert (forall s0 sg, in_progress E headers config now value s0 sg -> s0 = s /\ sg = sig /\ in_progress E headers' config now value s sig) as P.
  { intros s0 sg [P1 P2]. destruct (X _ _ P1) as [-> ->]. split; [reflexivity|]. split; [reflexivity|]. split; [exact P1|]. eapply checks_same; eassumption. }
  destruct V as [s0 e0 R0|s0 sg e0 R0 F0|s0 sg p k e0 Pr L A Le|s0 sg p Pr L A|s0 sg p txts k e0 Pr L A Rc|s0 sg p txts k Pr L A Rc]; unfold moved; cbn.
  - eapply vd_format; eassumption.
  - destruct (X _ _ R0) as [-> ->]. eapply vd_check; [eassumption|]. eapply checks_same; eassumption.
  - destruct (P _ _ Pr) as (-> & -> & P'). eapply vd_lookup; eassumption.
  - destruct (P _ _ Pr) as (-> & -> & P'). eapply vd_no_key; eassumption.
  - destruct (P _ _ Pr) as (-> & -> & P'). eapply vd_key; try eassumption. eapply records_same; eassumption.
  - destruct (P _ _ Pr) as (-> & -> & P'). rewrite B. eapply vd_body; try eassumption. eapply records_same; eassumption.
Qed.

Lemma body_status_same : forall config sig body body', same_body (c_body (s_canonicalization sig)) body body' ->
  body_status E config sig body = body_status E config sig body'.
Proof. intros config sig body body' H. unfold body_status, expected_result. rewrite (same_body_canonical _ _ _ H). reflexivity. Qed.

Lemma unsigned_same : forall alg config sig headers headers',
  same_fields alg (cf_headers_forbidden_to_be_unsigned config) headers headers' ->
  (unsigned_occurrence headers config sig <-> unsigned_occurrence headers' config sig).
Proof.
  intros alg config sig headers headers' H.
  assert (forall n, In n (cf_headers_forbidden_to_be_unsigned config) -> occurrences n (map fst headers) = occurrences n (map fst headers')) as X.
  { intros n Hn. rewrite !occurrences_named. pose proof (H n Hn) as Y. clear - Y. induction Y; cbn [length]; congruence. }
  split; intros (n & Hn & L); exists n; split; auto; [rewrite <- X|rewrite X]; assumption.
Qed.

Theorem transit : forall w w' config headers headers' chunks chunks' answer rs rs' i i' name name' value r r' s sig,
  evaluation E w headers config chunks answer rs -> result_for config headers rs i name value r ->
  evaluation E w' headers' config chunks' answer rs' -> result_for config headers' rs' i' name' value r' ->
  w_clock w i = w_clock w' i' ->
  signature_read E value s (Ok sig) ->
  let c := s_canonicalization sig in
  same_field (c_header c) (name, value) (name', value) ->
  same_fields (c_header c) (s_signed_headers sig ++ cf_headers_forbidden_to_be_unsigned config) headers headers' ->
  same_body (c_body c) (concat chunks) (concat chunks') ->
  r' = moved i' r.
Proof.
  intros w w' config headers headers' chunks chunks' answer rs rs' i i' name name' value r r' s sig Ev R Ev' R' T SR c N F B.
  destruct (evaluation_verdict _ _ _ _ _ _ _ _ _ _ _ Ev R) as (V & _). destruct (evaluation_verdict _ _ _ _ _ _ _ _ _ _ _ Ev' R') as (V' & _).
  rewrite <- T in V'. apply (verdict_det _ _ _ _ _ _ _ _ _ _ _ V'). eapply verdict_transit; [exact SR| | | |exact V].
  - apply (unsigned_same (c_header c)). intros n Hn. apply F. apply in_or_app. auto.
  - unfold signed_digest. f_equal. f_equal.
    + apply hash_input_same. intros n Hn. apply F. apply in_or_app. auto.
    + apply same_field_canonical. fold c. destruct (c_header c); cbn in N |- *; [injection N as ->; reflexivity|]. tauto.
  - apply body_status_same. exact B.
Qed.

(** a field that is not a readable signature has the same result in any message *)
Theorem transit_unreadable : forall w w' config config' headers headers' chunks chunks' answer answer' rs rs' i i' name name' value r r' s e,
  evaluation E w headers config chunks answer rs -> result_for config headers rs i name value r ->
  evaluation E w' headers' config' chunks' answer' rs' -> result_for config' headers' rs' i' name' value r' ->
  signature_read E value s (Err e) -> r' = moved i' r.
Proof.
  intros w w' config config' headers headers' chunks chunks' answer answer' rs rs' i i' name name' value r r' s e Ev R Ev' R' SR.
  destruct (evaluation_verdict _ _ _ _ _ _ _ _ _ _ _ Ev R) as (V & _). destruct (evaluation_verdict _ _ _ _ _ _ _ _ _ _ _ Ev' R') as (V' & _).
  rewrite (verdict_det _ _ _ _ _ _ _ _ _ _ _ V (vd_format _ _ _ _ _ _ _ _ _ _ _ SR)).
  rewrite (verdict_det _ _ _ _ _ _ _ _ _ _ _ V' (vd_format _ _ _ _ _ _ _ _ _ _ _ SR)). reflexivity.
Qed.

(** fields added on top *)
Theorem transit_on_top : forall w w' config headers extra chunks answer rs rs' i name value r r' s sig,
  evaluation E w headers config chunks answer rs -> result_for config headers rs i name value r ->
  let i' := (length extra + i)%nat in
  evaluation E w' (extra ++ headers) config chunks answer rs' -> result_for config (extra ++ headers) rs' i' name value r' ->
  w_clock w i = w_clock w' i' ->
  signature_read E value s (Ok sig) ->
  not_oversigned (s_signed_headers sig) headers extra ->
  (forall n f, In n (cf_headers_forbidden_to_be_unsigned config) -> In f extra -> ~ same_name (fst f) n) ->
  r' = moved i' r.
Proof.
  intros w w' config headers extra chunks answer rs rs' i name value r r' s sig Ev R i' Ev' R' T SR N U.
  destruct (evaluation_verdict _ _ _ _ _ _ _ _ _ _ _ Ev R) as (V & _). destruct (evaluation_verdict _ _ _ _ _ _ _ _ _ _ _ Ev' R') as (V' & _ & Hh & _).
  rewrite <- T in V'. apply (verdict_det _ _ _ _ _ _ _ _ _ _ _ V'). eapply verdict_transit; [exact SR| | | |exact V].
  - apply (unsigned_same Simple). intros n Hn. unfold named. rewrite filter_app.
    assert (filter (fun f => same_nameb (fst f) n) extra = []) as ->.
    { specialize (U n). clear - U Hn. induction extra as [|f fs IH]; [reflexivity|]. cbn [filter]. rewrite IH by (intros g _ Hg; apply (U g Hn); right; exact Hg).
      destruct (same_nameb (fst f) n) eqn:S; [|reflexivity]. apply same_nameb_iff in S. destruct (U f Hn (or_introl eq_refl) S). }
    cbn [app]. induction (filter _ headers); constructor; [reflexivity|assumption].
  - unfold signed_digest. f_equal. f_equal. symmetry. apply hash_input_above; assumption.
  - reflexivity.
Qed.

End WithEnv.
