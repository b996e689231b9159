(** Proofs about the reconstruction of the text that was signed. *)

From Coq Require Import String List.
From Verif Require Import Base Utf8 Canon BodyHash Header Domain Signature KeyRecord Crypto TagList Format Sign Verify
  SpecText SpecCanon SpecHash SpecHeader SpecTag SpecDomain SpecSig SpecFormat SpecSign SpecOutput
  Lib Utf8Proofs Base64Proofs HeaderProofs DomainProofs QPProofs QPDecode TagListProofs HeaderCanonProofs
  SigProofs FormatProofs SignProofs OutputProofs OutputParse.
Import ListNotations.
Open Scope N_scope.

Lemma value_no_semi : forall v, tag_value_text v -> ~ In 59 v.
Proof.
  induction 1; intros X.
  - destruct X as [X|[]]. unfold valchar in H. lia.
  - destruct X as [X|X]; [unfold valchar in H; lia|]. apply in_app_iff in X as [X|X]; [|tauto].
    apply ofws_chars in X; [lia|assumption].
Qed.

Lemma name_no_semi : forall n, tag_name_text n -> ~ In 59 n.
Proof.
  intros n (c & n' & -> & H1 & H2) [X|X]; [unfold alpha in H1; lia|]. rewrite Forall_forall in H2. specialize (H2 _ X).
  unfold alnum_, alpha in H2. lia.
Qed.

Lemma ofws_no_semi : forall f, ofws f -> ~ In 59 f.
Proof. intros f H X. apply ofws_chars in X; [lia|exact H]. Qed.

Lemma spec_no_semi : forall p n v, tag_spec_text p n v -> ~ In 59 p.
Proof.
  intros p n v H. destruct H; rewrite !in_app_iff; intros X; repeat destruct X as [X|X];
    try (eapply ofws_no_semi in X; [exact X|assumption]); try (eapply name_no_semi in X; [exact X|assumption]);
    try (eapply value_no_semi in X; [exact X|assumption]); try discriminate X; try tauto.
Qed.

Lemma spec_prefix : forall p n v, tag_spec_text p n v -> n <> lit "b" -> b_tag_prefix p = None.
Proof.
  intros p n v H Hn. unfold b_tag_prefix.
  assert (exists rest, strip_tag_name_and_equals p = Some (rest, n)) as (rest & ->).
  { destruct H; eexists; apply name_equals_complete; assumption. }
  destruct (leqb n (lit "b")) eqn:L; [|reflexivity]. apply leqb_eq in L. congruence.
Qed.

(** tags other than b=, each with its semicolon *)
Inductive others : str -> Prop :=
| ot_nil : others []
| ot_cons : forall p n v a, tag_spec_text p n v -> n <> lit "b" -> others a -> others (p ++ [59] ++ a).

Lemma others_ends : forall a, others a -> a = [] \/ exists a', a = a' ++ [59].
Proof.
  induction 1; [left; reflexivity|]. right. destruct IHothers as [->|(a' & ->)].
  - exists p. reflexivity.
  - exists (p ++ [59] ++ a'). rewrite <- !app_assoc. reflexivity.
Qed.

Lemma others_app : forall a b, others a -> others b -> others (a ++ b).
Proof. intros a b H K. induction H; [exact K|]. rewrite <- !app_assoc. econstructor; eassumption. Qed.

Lemma original_others : forall a x, others a -> make_original_dkim_sig (a ++ x) = a ++ make_original_dkim_sig x.
Proof.
  intros a x H. induction H; [reflexivity|]. rewrite <- !app_assoc. cbn [app]. unfold make_original_dkim_sig in *.
  rewrite split_on_app_sep by (eapply spec_no_semi; eassumption). cbn [original_loop].
  destruct (split_on 59 (a ++ x)) as [|q qs] eqn:Es; [exfalso; eapply split_on_nonempty; eassumption|].
  rewrite (spec_prefix p n v) by assumption. rewrite IHothers. reflexivity.
Qed.

Lemma join_semi_join : forall ps, join_semi ps = join 59 ps.
Proof. induction ps as [|p ps IH]; [reflexivity|]. cbn [join_semi join]. destruct ps; [reflexivity|]. rewrite IH. reflexivity. Qed.

Lemma b_name : tag_name_text (lit "b").
Proof. apply lit_name. reflexivity. Qed.

Lemma b_prefix : forall f1 f2 w, ofws f1 -> ofws f2 ->
  b_tag_prefix (f1 ++ lit "b" ++ f2 ++ [61] ++ w) = Some (f1 ++ lit "b" ++ f2 ++ [61]).
Proof.
  intros f1 f2 w H1 H2. unfold b_tag_prefix. rewrite name_equals_complete by (auto using b_name).
  change (leqb (lit "b") (lit "b")) with true. cbv iota. f_equal.
  replace (f1 ++ lit "b" ++ f2 ++ [61] ++ w) with ((f1 ++ lit "b" ++ f2 ++ [61]) ++ w) by (rewrite <- !app_assoc; reflexivity).
  generalize (f1 ++ lit "b" ++ f2 ++ [61]). intros x. rewrite app_length.
  replace (length x + length w - length w)%nat with (length x + 0)%nat by lia.
  rewrite firstn_app_2. cbn [firstn]. apply app_nil_r.
Qed.

Lemma original_b : forall f1 f2 w c, ofws f1 -> ofws f2 -> ~ In 59 w -> c = [] \/ (exists c', c = 59 :: c') ->
  make_original_dkim_sig (f1 ++ lit "b" ++ f2 ++ [61] ++ w ++ c) = f1 ++ lit "b" ++ f2 ++ [61] ++ c.
Proof.
  intros f1 f2 w c H1 H2 Hw Hc. unfold make_original_dkim_sig.
  assert (~ In 59 (f1 ++ lit "b" ++ f2 ++ [61] ++ w)) as N.
  { rewrite !in_app_iff. intros X. destruct X as [X|[X|[X|[X|X]]]]; try (eapply ofws_no_semi in X; [exact X|assumption]); try tauto.
    - destruct X as [X|[]]. discriminate X.
    - destruct X as [X|[]]. discriminate X. }
  destruct Hc as [->|(c' & ->)].
  - rewrite !app_nil_r. rewrite split_on_none by exact N. cbn [original_loop]. rewrite b_prefix by assumption.
    destruct (is_nil (f1 ++ lit "b" ++ f2 ++ [61] ++ w)) eqn:En; [|reflexivity].
    exfalso. destruct f1; discriminate En.
  - replace (f1 ++ lit "b" ++ f2 ++ [61] ++ w ++ 59 :: c') with ((f1 ++ lit "b" ++ f2 ++ [61] ++ w) ++ 59 :: c') by (rewrite <- !app_assoc; reflexivity).
    rewrite split_on_app_sep by exact N. cbn [original_loop].
    destruct (split_on 59 c') as [|q qs] eqn:Es; [exfalso; eapply split_on_nonempty; eassumption|]. rewrite b_prefix by assumption.
    rewrite join_semi_join, <- Es, join_split_on. rewrite <- !app_assoc. reflexivity.
Qed.

(** a parseable value *)
Lemma tag_list_b : forall s tags v, tag_list_text s tags -> NoDup (map fst tags) -> In (lit "b", v) tags ->
  exists a f1 f2 f3 f4 c, others a /\ ofws f1 /\ ofws f2 /\ ofws f3 /\ ofws f4 /\ ~ In 59 v
    /\ (c = [] \/ exists c', c = 59 :: c')
    /\ s = a ++ f1 ++ lit "b" ++ f2 ++ [61] ++ f3 ++ v ++ f4 ++ c.
Proof.
  assert (forall s v, tag_spec_text s (lit "b") v -> exists f1 f2 f3 f4, ofws f1 /\ ofws f2 /\ ofws f3 /\ ofws f4 /\ ~ In 59 v
    /\ s = f1 ++ lit "b" ++ f2 ++ [61] ++ f3 ++ v ++ f4) as One.
  { intros s v H. remember (lit "b") as bn. destruct H; subst n.
    - exists f1, f2, f3, []. rewrite app_nil_l, app_nil_r. repeat split; try assumption; [left; reflexivity|intros []].
    - exists f1, f2, f3, f4. repeat split; try assumption. apply value_no_semi. assumption. }
  intros s tags v H. induction H; intros ND Hi.
  - destruct Hi as [Hi|[]]. injection Hi as -> ->. apply One in H as (f1 & f2 & f3 & f4 & ? & ? & ? & ? & ? & ->).
    exists [], f1, f2, f3, f4, []. rewrite app_nil_r. repeat split; try assumption; [constructor|auto].
  - destruct Hi as [Hi|[]]. injection Hi as -> ->. apply One in H as (f1 & f2 & f3 & f4 & ? & ? & ? & ? & ? & ->).
    exists [], f1, f2, f3, f4, [59]. repeat split; try assumption; [constructor|right; exists []; reflexivity|].
    rewrite <- !app_assoc. reflexivity.
  - destruct Hi as [Hi|Hi].
    + injection Hi as -> ->. apply One in H as (f1 & f2 & f3 & f4 & ? & ? & ? & ? & ? & ->).
      exists [], f1, f2, f3, f4, (59 :: t). repeat split; try assumption; [constructor|right; exists t; reflexivity|].
      rewrite <- !app_assoc. reflexivity.
    + cbn [map fst] in ND. inv ND. destruct (IHtag_list_text H4 Hi) as (a & f1 & f2 & f3 & f4 & c & Oa & ? & ? & ? & ? & ? & ? & ->).
      exists (s ++ [59] ++ a), f1, f2, f3, f4, c. repeat split; try assumption.
      * econstructor; try eassumption. intros ->. apply H3. apply in_map_iff. exists (lit "b", v). auto.
      * rewrite <- !app_assoc. reflexivity.
Qed.

Lemma original_at_b : forall a f1 f2 w c, others a -> ofws f1 -> ofws f2 -> ~ In 59 w -> c = [] \/ (exists c', c = 59 :: c') ->
  make_original_dkim_sig (a ++ f1 ++ lit "b" ++ f2 ++ [61] ++ w ++ c) = a ++ f1 ++ lit "b" ++ f2 ++ [61] ++ c.
Proof. intros. rewrite original_others by assumption. rewrite original_b by assumption. reflexivity. Qed.

Theorem original_spec : forall s tags v, tag_list_from_str s = Ok tags -> get "b" tags = Some v ->
  signature_removed s v (make_original_dkim_sig s).
Proof.
  intros s tags v H G. apply tag_list_ok in H as [T ND].
  destruct (tag_list_b s _ v T ND) as (a & f1 & f2 & f3 & f4 & c & Oa & F1 & F2 & F3 & F4 & Nv & Hc & ->).
  { apply tag_get_In in G; [|rewrite <- pairs_names; exact ND]. unfold pairs_of. apply in_map_iff. exists (mkTag (lit "b") v). auto. }
  exists a, f1, f2, f3, f4, c. repeat split; try assumption; [apply others_ends; assumption|].
  replace (a ++ f1 ++ lit "b" ++ f2 ++ [61] ++ f3 ++ v ++ f4 ++ c) with (a ++ f1 ++ lit "b" ++ f2 ++ [61] ++ (f3 ++ v ++ f4) ++ c)
    by (rewrite <- !app_assoc; reflexivity).
  apply original_at_b; try assumption. rewrite !in_app_iff. intros [X|[X|X]]; try (eapply ofws_no_semi in X; [exact X|assumption]). tauto.
Qed.

Theorem original_unchanged : forall s tags, tag_list_from_str s = Ok tags -> get "b" tags = None -> make_original_dkim_sig s = s.
Proof.
  intros s tags H G. apply tag_list_ok in H as [T _].
  assert (~ In (lit "b") (map fst (pairs_of tags))) as Hb.
  { rewrite pairs_names. clear T. unfold get in G. induction tags as [|t ts IH]; cbn [tag_get map In] in *; [tauto|].
    destruct (leqb (tag_name t) (lit "b")) eqn:L; [discriminate|]. apply leqb_neq in L. intros [X|X]; [congruence|exact (IH G X)]. }
  clear G. revert Hb T. generalize (pairs_of tags). intros l Hb T. induction T; cbn [map fst In] in Hb.
  - unfold make_original_dkim_sig. rewrite split_on_none by (eapply spec_no_semi; eassumption). cbn [original_loop].
    rewrite (spec_prefix s n v) by (auto; congruence). destruct (is_nil s); reflexivity.
  - change (s ++ [59]) with (s ++ [59] ++ []).
    rewrite <- (app_nil_r (s ++ [59] ++ [])). rewrite original_others; [reflexivity|]. econstructor; [eassumption|intros ->; tauto|constructor].
  - replace (s ++ [59] ++ t) with ((s ++ [59] ++ []) ++ t) by (rewrite <- !app_assoc; reflexivity).
    rewrite original_others; [|econstructor; [eassumption|intros ->; tauto|constructor]]. rewrite IHT by tauto. reflexivity.
Qed.

(** signer output *)
Theorem output_original : forall E now r headers body o u pre post sig n b64, idna_ok (env_idna E) ->
  output_of E now r headers body o u pre post sig n b64 ->
  make_original_dkim_sig (so_header_value o) = pre ++ post.
Proof.
  intros E now r headers body o u pre post sig n b64 IO H.
  pose proof (oo_sound _ _ _ _ _ _ _ _ _ _ _ _ H) as S.
  pose proof (oo_format _ _ _ _ _ _ _ _ _ _ _ _ H) as F. pose proof (oo_formattable _ _ _ _ _ _ _ _ _ _ _ _ H) as FU.
  pose proof (oo_bytes _ _ _ _ _ _ _ _ _ _ _ _ H) as Hb. pose proof (oo_b64 _ _ _ _ _ _ _ _ _ _ _ _ H) as H64.
  destruct (oo_parts _ _ _ _ _ _ _ _ _ _ _ _ H) as (before & after & ps & qs & i1 & i2 & x & y & HN & Hps & Hqs & L1 & L2 & L3).
  rewrite (oo_o _ _ _ _ _ _ _ _ _ _ _ _ H). cbn [so_header_value].
  set (w := of_line_width (r_format E r)) in *. set (ind := of_indentation (r_format E r)) in *.
  assert (wsps ind) as W1 by apply F. assert (ind <> []) as W2 by apply F.
  assert (~ In (lit "b") before) as Nb.
  { assert (NoDup (tag_names u (r_format E r))) as ND.
    { eapply Permutation_NoDup; [symmetry; apply tag_names_perm; exact F|]. eapply default_names_nodup; eassumption. }
    rewrite HN in ND. apply NoDup_remove_2 in ND. intros X. apply ND. apply in_app_iff. auto. }
  assert (u_signed_headers u <> []) as Hh. { destruct (su_from _ _ S) as (z & Z & _). intros Y. rewrite Y in Z. destruct Z. }
  (* the text before *)
  pose proof (layout_laid w ind (concat ps ++ [mkPiece Start (lit "b=") 1]) (length (of_header_name (r_format E r)) + 1)%nat) as A.
  rewrite L1 in A. cbn [fst] in A. apply laid_split in A as (a & b & -> & A & B).
  apply (laid_one ind W1 W2) in B as (f1 & F1 & ->). cbn [p_text].
  assert (others a) as Oa.
  { clear - A Hps Nb S IO W1 W2 Hh. revert a A. induction Hps as [|m p ms ps Hp _ IH]; intros a A.
    - inv A. constructor.
    - cbn [concat] in A. apply laid_split in A as (a1 & a2 & -> & A1 & A2).
      apply others_app; [|apply IH; [intros X; apply Nb; right; exact X|exact A2]].
      destruct (tag_laid _ _ _ _ ind W1 W2 _ _ _ _ Hp A1 Hh) as (val & (g1 & g3 & G1 & G3 & ->) & M).
      destruct (means_value E u IO S _ _ _ _ (Forall_nil _) M) as [N1 N2].
      assert (m <> lit "b") as Nm. { intros ->. apply Nb. left; reflexivity. }
      destruct N2 as [->|N2].
      + change ([] ++ [59]) with ([59] ++ []). replace (g1 ++ m ++ [61] ++ g3 ++ [59] ++ []) with ((g1 ++ m ++ [] ++ [61] ++ g3) ++ [59] ++ []) by (rewrite <- !app_assoc; reflexivity).
        econstructor; [|exact Nm|constructor]. apply (ts_empty g1 [] g3 m); auto. left; reflexivity.
      + replace (g1 ++ m ++ [61] ++ g3 ++ val ++ [59]) with ((g1 ++ m ++ [] ++ [61] ++ g3 ++ val ++ []) ++ [59] ++ []) by (rewrite app_nil_r, <- !app_assoc; reflexivity).
        econstructor; [|exact Nm|constructor]. apply (ts_value g1 [] g3 [] m val); auto; left; reflexivity. }
  (* the text after *)
  pose proof (layout_laid w ind (glued (if is_nil after then [] else [59]) :: qs) i2) as C. rewrite L3 in C. cbn [fst] in C.
  assert (post = [] \/ exists c', post = 59 :: c') as Hp.
  { apply laid_first in C as (sep & t & Hs & -> & Ht). cbn in Hs. subst sep. destruct after; cbn [is_nil].
    - inv Hqs. inv Ht. left; reflexivity.
    - right. exists t. reflexivity. }
  pose proof (layout_laid w ind (letters b64) n) as D. apply (laid_letters ind W1 W2) in D.
  change (lit "b=") with (lit "b" ++ [61]). rewrite <- !app_assoc.
  change (a ++ f1 ++ lit "b" ++ [61] ++ fst (layout w ind n (letters b64)) ++ post)
    with (a ++ f1 ++ lit "b" ++ [] ++ [61] ++ fst (layout w ind n (letters b64)) ++ post).
  apply original_at_b; auto; [left; reflexivity|].
  intros X. destruct (spaced_in _ _ _ D X) as [Y|Y]; [|lia].
  pose proof (base64_valchar _ _ Hb H64) as V. rewrite Forall_forall in V. specialize (V _ Y). unfold valchar in V. lia.
Qed.
