(** Proofs about text up to whitespace: what of a signature is determined by its
    text when whitespace is disregarded. *)

From Coq Require Import String List.
From Verif Require Import Base Utf8 Canon BodyHash Header Domain Signature KeyRecord Crypto TagList Format Sign Verify
  SpecText SpecCanon SpecHash SpecHeader SpecTag SpecDomain SpecSig SpecFormat SpecSign SpecOutput SpecEnd
  Lib Utf8Proofs Base64Proofs HeaderProofs DomainProofs QPProofs QPDecode TagListProofs HeaderCanonProofs
  SigProofs OutputProofs OutputParse OriginalProofs.
Import ListNotations.
Open Scope N_scope.

Lemma squeeze_app : forall a b, squeeze (a ++ b) = squeeze a ++ squeeze b.
Proof. intros. apply filter_app. Qed.

Lemma squeeze_cons : forall c s, white c = false -> squeeze (c :: s) = c :: squeeze s.
Proof. intros c s H. unfold squeeze. cbn [filter]. rewrite H. reflexivity. Qed.

Lemma squeeze_black : forall s, Forall (fun c => white c = false) s -> squeeze s = s.
Proof. induction 1; [reflexivity|]. rewrite squeeze_cons by assumption. congruence. Qed.

Lemma squeeze_white : forall s, Forall (fun c => white c = true) s -> squeeze s = [].
Proof. induction 1; [reflexivity|]. unfold squeeze. cbn [filter]. rewrite H. exact IHForall. Qed.

Lemma white_iff : forall c, white c = true <-> c = 32 \/ c = 9 \/ c = 13 \/ c = 10.
Proof. intros c. unfold white. lia. Qed.

Lemma black_iff : forall c, white c = false <-> ~ (c = 32 \/ c = 9 \/ c = 13 \/ c = 10).
Proof. intros c. unfold white. lia. Qed.

Lemma squeeze_ofws : forall f, ofws f -> squeeze f = [].
Proof. intros f H. apply squeeze_white. apply Forall_forall. intros c Hc. apply white_iff. exact (ofws_chars f c H Hc). Qed.

Ltac drop_fws := repeat match goal with H : ofws ?f |- context [squeeze ?f] => rewrite (squeeze_ofws f H) end.

Lemma ofws_nil : ofws [].
Proof. left. reflexivity. Qed.

Lemma cons_eq : forall A (a b : A) l m, a :: l = b :: m -> a = b /\ l = m.
Proof. intros A a b l m [= -> ->]. auto. Qed.

(** ** Tag lists *)

Lemma name_black : forall n, tag_name_text n -> squeeze n = n.
Proof.
  intros n (c & n' & -> & H1 & H2). apply squeeze_black. constructor.
  - apply black_iff. unfold alpha in H1. lia.
  - eapply Forall_impl; [|exact H2]. intros d. cbn beta. unfold alnum_, alpha. intros. apply black_iff. lia.
Qed.

Lemma valchar_black : forall c, valchar c -> white c = false.
Proof. intros c. unfold valchar. intros. apply black_iff. lia. Qed.

Lemma value_squeeze : forall v, tag_value_text v -> tag_value_text (squeeze v).
Proof.
  induction 1.
  - rewrite squeeze_cons by (apply valchar_black; assumption). constructor. assumption.
  - rewrite squeeze_cons by (apply valchar_black; assumption). rewrite squeeze_app, squeeze_ofws by assumption.
    apply (tv_cons c [] (squeeze v)); auto using ofws_nil.
Qed.

Lemma spec_squeeze : forall p n v, tag_spec_text p n v -> tag_spec_text (squeeze p) n (squeeze v).
Proof.
  intros p n v H. destruct H; rewrite !squeeze_app, (name_black n) by assumption; drop_fws.
  - apply (ts_empty [] [] [] n); auto using ofws_nil.
  - apply (ts_value [] [] [] [] n); auto using ofws_nil, value_squeeze.
Qed.

Definition squeeze_tag (t : str * str) : str * str := (fst t, squeeze (snd t)).

Lemma tags_squeeze : forall s tags, tag_list_text s tags -> tag_list_text (squeeze s) (map squeeze_tag tags).
Proof.
  induction 1; rewrite ?squeeze_app.
  - apply tl_last. apply spec_squeeze. assumption.
  - apply tl_semi. apply spec_squeeze. assumption.
  - apply (tl_cons (squeeze s) n (squeeze v)); [apply spec_squeeze|]; assumption.
Qed.

(** the signed text as a tag list: b= is empty *)
Definition blank_b (t : str * str) : str * str := if leqb (fst t) (lit "b") then (fst t, []) else t.

Lemma blank_others : forall tags, ~ In (lit "b") (map fst tags) -> map blank_b tags = tags.
Proof.
  induction tags as [|[n v] tags IH]; intros H; [reflexivity|]. cbn [map fst In] in *. rewrite IH by tauto. f_equal.
  unfold blank_b. cbn [fst]. destruct (leqb n (lit "b")) eqn:X; [apply leqb_eq in X; tauto|reflexivity].
Qed.

Lemma original_head : forall p n v c, tag_spec_text p n v -> n <> lit "b" ->
  make_original_dkim_sig (p ++ [59] ++ c) = p ++ [59] ++ make_original_dkim_sig c.
Proof.
  intros p n v c H Hn. replace (p ++ [59] ++ c) with ((p ++ [59] ++ []) ++ c) by (rewrite <- !app_assoc; reflexivity).
  rewrite original_others by (econstructor; [eassumption|exact Hn|constructor]). rewrite <- !app_assoc. reflexivity.
Qed.

Lemma original_spec_b : forall p v, tag_spec_text p (lit "b") v ->
  exists p', tag_spec_text p' (lit "b") [] /\ forall c, c = [] \/ (exists c', c = 59 :: c') -> make_original_dkim_sig (p ++ c) = p' ++ c.
Proof.
  intros p v H. remember (lit "b") as bn. destruct H; subst n.
  - exists (f1 ++ lit "b" ++ f2 ++ [61]). split.
    + pose proof (ts_empty f1 f2 [] (lit "b")) as X. cbn [app] in X. rewrite !app_assoc in X |- *. auto using ofws_nil.
    + intros c Hc. rewrite <- !app_assoc. apply original_b; try assumption. apply ofws_no_semi. assumption.
  - exists (f1 ++ lit "b" ++ f2 ++ [61]). split.
    + pose proof (ts_empty f1 f2 [] (lit "b")) as X. cbn [app] in X. rewrite !app_assoc in X |- *. auto using ofws_nil.
    + intros c Hc. rewrite <- !app_assoc.
      replace (f3 ++ v ++ f4 ++ c) with ((f3 ++ v ++ f4) ++ c) by (rewrite <- !app_assoc; reflexivity). apply original_b; try assumption.
      rewrite !in_app_iff. intros [X|[X|X]]; [|apply value_no_semi in X; assumption|]; (eapply ofws_no_semi; [|exact X]; assumption).
Qed.

Lemma original_tags : forall s tags, tag_list_text s tags -> NoDup (map fst tags) ->
  tag_list_text (make_original_dkim_sig s) (map blank_b tags).
Proof.
  assert (forall n, {n = lit "b"} + {n <> lit "b"}) as D by (intros; apply (list_eq_dec N.eq_dec)).
  assert (forall n v, n <> lit "b" -> blank_b (n, v) = (n, v)) as Nb.
  { intros n v H. unfold blank_b. cbn [fst]. destruct (leqb n (lit "b")) eqn:X; [apply leqb_eq in X; contradiction|reflexivity]. }
  induction 1; intros ND; cbn [map].
  - destruct (D n) as [->|Hn].
    + destruct (original_spec_b _ _ H) as (p' & P1 & P2). rewrite <- (app_nil_r s), P2, app_nil_r by auto. apply tl_last. exact P1.
    + rewrite Nb by assumption. rewrite (original_unchanged s [mkTag n v]).
      * apply tl_last. assumption.
      * apply tag_list_ok. split; [apply tl_last; assumption|exact ND].
      * unfold get. cbn [tag_get tag_name tag_value]. destruct (leqb n (lit "b")) eqn:X; [apply leqb_eq in X; contradiction|reflexivity].
  - destruct (D n) as [->|Hn].
    + destruct (original_spec_b _ _ H) as (p' & P1 & P2). rewrite P2 by (right; exists []; reflexivity). apply tl_semi. exact P1.
    + rewrite Nb by assumption. change (s ++ [59]) with (s ++ [59] ++ []). rewrite (original_head s n v) by assumption.
      apply tl_semi. assumption.
  - cbn [map fst] in ND. inv ND. destruct (D n) as [->|Hn].
    + destruct (original_spec_b _ _ H) as (p' & P1 & P2). change ([59] ++ t) with (59 :: t). rewrite P2 by (right; exists t; reflexivity).
      rewrite blank_others by assumption. apply (tl_cons p' (lit "b") []); assumption.
    + rewrite Nb by assumption. rewrite (original_head s n v) by assumption. apply tl_cons; auto.
Qed.

(** texts with the same signed text up to whitespace *)
Lemma same_tags : forall s1 s2 tags1 tags2, tag_list_from_str s1 = Ok tags1 -> tag_list_from_str s2 = Ok tags2 ->
  squeeze (make_original_dkim_sig s1) = squeeze (make_original_dkim_sig s2) ->
  map squeeze_tag (map blank_b (pairs_of tags1)) = map squeeze_tag (map blank_b (pairs_of tags2)).
Proof.
  intros s1 s2 tags1 tags2 H1 H2 Hs. apply tag_list_ok in H1 as [T1 N1]. apply tag_list_ok in H2 as [T2 N2].
  pose proof (tags_squeeze _ _ (original_tags _ _ T1 N1)) as X1. pose proof (tags_squeeze _ _ (original_tags _ _ T2 N2)) as X2.
  rewrite Hs in X1. exact (tag_list_text_det _ _ _ X1 X2).
Qed.

Lemma same_get : forall n tags1 tags2, map squeeze_tag (map blank_b (pairs_of tags1)) = map squeeze_tag (map blank_b (pairs_of tags2)) ->
  lit n <> lit "b" -> option_map squeeze (get n tags1) = option_map squeeze (get n tags2).
Proof.
  intros n tags1 tags2 H Hn. unfold get. revert tags2 H. induction tags1 as [|[n1 v1] tags1 IH]; intros [|[n2 v2] tags2] H; cbn [pairs_of map] in H; try discriminate H; [reflexivity|].
  injection H as Ht Hv H. cbn [tag_get tag_name tag_value]. unfold blank_b in Ht, Hv. cbn [fst tag_name tag_value] in Ht, Hv.
  assert (n1 = n2) as <-.
  { destruct (leqb n1 (lit "b")), (leqb n2 (lit "b")); exact Ht. }
  destruct (leqb n1 (lit n)) eqn:L.
  - apply leqb_eq in L. subst n1. destruct (leqb (lit n) (lit "b")) eqn:X; [apply leqb_eq in X; contradiction|].
    cbn [snd option_map] in *. congruence.
  - apply IH. exact H.
Qed.

(** ** Values *)

Lemma named_black : forall t name, lower (lit name) = lit name -> Forall (fun c => white c = false) (lit name) -> named t name -> squeeze t = t.
Proof.
  intros t name _ Hb H. apply squeeze_black. unfold named in H. apply Forall_forall. intros c Hc.
  rewrite Forall_forall in Hb. assert (white (if (65 <=? c) && (c <=? 90) then c + 32 else c) = false) as X.
  { apply Hb. rewrite <- H. unfold lower. apply in_map_iff. exists c. auto. }
  revert X. unfold white. destruct ((65 <=? c) && (c <=? 90)) eqn:Y; lia.
Qed.

Ltac black_lit := match goal with |- Forall _ (lit ?s) => let x := eval vm_compute in (lit s) in change (lit s) with x; repeat constructor end.

Lemma algorithm_squeeze : forall pre t a, algorithm_text pre t a -> squeeze t = t.
Proof. intros pre t a H. destruct H; (eapply named_black; [| |eassumption]; [reflexivity|black_lit]). Qed.

Lemma canon_alg_squeeze : forall t a, canon_alg_text t a -> squeeze t = t.
Proof. intros t a H. destruct H; (eapply named_black; [| |eassumption]; [reflexivity|black_lit]). Qed.

Lemma canonicalization_squeeze : forall t c, canonicalization_text t c -> squeeze t = t.
Proof.
  intros t c H. destruct H; [|eapply canon_alg_squeeze; eassumption].
  rewrite squeeze_app. erewrite canon_alg_squeeze by eassumption. f_equal. change ([47] ++ b) with (47 :: b).
  rewrite squeeze_cons by reflexivity. erewrite canon_alg_squeeze by eassumption. reflexivity.
Qed.

Lemma number_squeeze : forall t n, number_text t n -> squeeze t = t.
Proof.
  intros t n (ds & _ & H & Ht & _). assert (squeeze ds = ds) as X.
  { apply squeeze_black. eapply Forall_impl; [|exact H]. intros c. cbn beta. intros. apply black_iff. lia. }
  destruct Ht as [->| ->]; [exact X|]. rewrite squeeze_cons by reflexivity. congruence.
Qed.

Lemma b64_digit_black : forall v, white (b64_digit v) = false.
Proof.
  intros v. unfold b64_digit. generalize (N.to_nat v). clear v. intros n.
  assert (Forall (fun c => white c = false) b64_alphabet) as X by (change b64_alphabet with (map (fun x => x) b64_alphabet); vm_compute; repeat constructor).
  destruct (nth_in_or_default n b64_alphabet 0) as [H| ->]; [|reflexivity]. rewrite Forall_forall in X. apply X. exact H.
Qed.

Lemma base64_black : forall bs s, base64 bs s -> Forall (fun c => white c = false) s.
Proof. induction 1; repeat constructor; try apply b64_digit_black. assumption. Qed.

Lemma base64_squeeze : forall t bs, base64_text t bs -> base64_text (squeeze t) bs.
Proof.
  intros t bs (Hb & s & Hs & Hi). split; [exact Hb|]. exists s. split; [exact Hs|].
  assert (squeeze t = s) as ->.
  { apply base64_black in Hs. clear Hb. induction Hi.
    - apply squeeze_white. eapply Forall_impl; [|exact H]. intros c. cbn beta. apply white_iff.
    - inv Hs. rewrite squeeze_app, squeeze_cons by assumption. rewrite squeeze_white, IHHi by
        (assumption || (eapply Forall_impl; [|exact H]; intros d; cbn beta; apply white_iff)). reflexivity. }
  clear. induction s as [|c s IH]; [constructor; constructor|]. apply (ins_cons _ [] c s s); [constructor|exact IH].
Qed.

Lemma colon_squeeze : forall t names, colon_list t names -> Forall field_name names -> colon_list (squeeze t) names.
Proof.
  intros t names (raws & N & -> & F & H) Hf. exists (map squeeze raws).
  assert (squeeze (colon_joined raws) = colon_joined (map squeeze raws)) as ->.
  { clear. induction raws as [|x l IH]; [reflexivity|]. destruct l as [|y l]; [reflexivity|].
    change (colon_joined (x :: y :: l)) with (x ++ [58] ++ colon_joined (y :: l)). rewrite !squeeze_app, IH. reflexivity. }
  split; [destruct raws; [contradiction|discriminate]|]. split; [reflexivity|]. split; [|exact H].
  clear N H. induction F; cbn [map]; constructor; inv Hf; auto. destruct H as (f1 & f2 & F1 & F2 & -> & Hi).
  assert (squeeze y = y) as Y.
  { apply squeeze_black. destruct H2 as [_ H2]. eapply Forall_impl; [|exact H2]. intros c. cbn beta. unfold ftext. intros. apply black_iff. lia. }
  rewrite !squeeze_app. drop_fws. rewrite Y. exists [], []. split; [apply ofws_nil|]. split; [apply ofws_nil|].
  split; [reflexivity|]. destruct Hi as [[-> _]|Hi]; [left; auto|right; exact Hi].
Qed.

Lemma hexdigit_black : forall c v, hexdigit c v -> white c = false.
Proof. intros c v H. apply black_iff. destruct H; lia. Qed.

Lemma qp_items_squeeze : forall t bs, qp_items t bs -> qp_items (squeeze t) bs.
Proof.
  induction 1.
  - constructor.
  - rewrite squeeze_cons, squeeze_app, squeeze_ofws by (assumption || (apply black_iff; unfold dkim_safe in *; lia)).
    apply (qi_safe c []); auto using ofws_nil.
  - rewrite squeeze_cons by reflexivity. rewrite squeeze_app, squeeze_ofws by assumption. cbn [app].
    rewrite squeeze_cons by (eapply hexdigit_black; eassumption). rewrite squeeze_app, squeeze_ofws by assumption. cbn [app].
    rewrite squeeze_cons by (eapply hexdigit_black; eassumption). rewrite squeeze_app, squeeze_ofws by assumption. cbn [app].
    apply (qi_hex [] c1 v1 [] c2 v2 []); auto using ofws_nil.
Qed.

Lemma qp_squeeze : forall t bs, qp_text t bs -> qp_text (squeeze t) bs.
Proof.
  intros t bs (f & s & F & -> & H). rewrite squeeze_app, squeeze_ofws by assumption. exists [], (squeeze s).
  split; [apply ofws_nil|]. split; [reflexivity|]. apply qp_items_squeeze. exact H.
Qed.

Lemma identity_squeeze : forall idna t i, identity_tag_text idna t i -> identity_tag_text idna (squeeze t) i.
Proof. intros idna t i (s & S & Q & I). exists s. split; [exact S|]. split; [apply qp_squeeze; exact Q|exact I]. Qed.

Lemma copied_squeeze : forall t hs, copied_headers_text t hs -> copied_headers_text (squeeze t) hs.
Proof.
  intros t hs (ps & N & Hp & -> & F). exists (map squeeze ps). split; [destruct ps; [contradiction|discriminate]|]. split; [|split].
  - clear - Hp. induction Hp; constructor; [|assumption]. intros X. apply H. unfold squeeze in X. apply filter_In in X. tauto.
  - clear. induction ps as [|x l IH]; [reflexivity|]. destruct l as [|y l]; [reflexivity|].
    change (bar_joined (x :: y :: l)) with (x ++ [124] ++ bar_joined (y :: l)). rewrite !squeeze_app, IH. reflexivity.
  - clear - F. induction F; cbn [map]; constructor; [|assumption]. destruct y as [n v]. destruct H as [H1 H2]. split; [exact H1|].
    apply qp_squeeze. exact H2.
Qed.

Lemma domain_black : forall idna d b, idna_ok idna -> domain_text idna d b -> squeeze d = d.
Proof.
  intros idna d b IO ((a & A & _ & init & final & -> & L & _) & _). apply squeeze_black. apply Forall_forall. intros c Hc.
  destruct (white c) eqn:W; [|reflexivity]. exfalso. apply white_iff in W.
  assert (lower [c] = [c]) as Lc by (unfold lower; cbn [map]; destruct ((65 <=? c) && (c <=? 90)) eqn:Y; [lia|reflexivity]).
  assert (In c (lower d)) as Hl.
  { unfold lower in *. cbn [map] in Lc. injection Lc as Lc. rewrite <- Lc at 1. apply in_map_iff. exists c. auto. }
  destruct (io_keeps _ IO _ _ c A Hl ltac:(lia)) as [X|X]; [unfold composable in X; lia|]. unfold lower in X. apply in_map_iff in X as (y & Y1 & Y2).
  assert (In y (dotted (init ++ [final])) -> y = 46 \/ letter_digit y \/ y = 45 \/ y = 95) as Z.
  { clear - L. induction L as [|l ls Hl L IH]; [intros []|]. destruct ls as [|l2 ls]; cbn [dotted].
    - intros H. destruct Hl as (_ & F & _). rewrite Forall_forall in F. specialize (F _ H). tauto.
    - rewrite !in_app_iff. intros [H|[H|H]]; [|destruct H as [H|[]]; auto|auto].
      destruct Hl as (_ & F & _). rewrite Forall_forall in F. specialize (F _ H). tauto. }
  specialize (Z Y2). unfold letter_digit in Z. destruct ((65 <=? y) && (y <=? 90)) eqn:Y; lia.
Qed.

(** ** Signatures *)

Definition stable_read {A} (R : str -> A -> Prop) : Prop :=
  forall t x t' y, t = [] \/ tag_value_text t -> R t x -> R t' y -> squeeze t = squeeze t' -> x = y.

Lemma stable_of : forall A (R : str -> A -> Prop), (forall t x, R t x -> R (squeeze t) x) ->
  (forall t x y, t = [] \/ tag_value_text t -> R t x -> R t y -> x = y) -> stable_read R.
Proof.
  intros A R Sq D t x t' y V H1 H2 Hs. apply Sq in H1, H2. rewrite <- Hs in H2. refine (D _ _ _ _ H1 H2).
  destruct V as [->|V]; [left; reflexivity|right; apply value_squeeze; exact V].
Qed.

Lemma stable_optional : forall A (R : str -> A -> Prop), stable_read R ->
  forall t x t' y, (forall v, t = Some v -> v = [] \/ tag_value_text v) -> optional R t x -> optional R t' y -> option_map squeeze t = option_map squeeze t' -> x = y.
Proof.
  intros A R S [t|] [x|] [t'|] [y|] V; cbn [optional option_map]; intros H1 H2 Hs; try contradiction; try discriminate; [|reflexivity].
  injection Hs as Hs. f_equal. exact (S t x t' y (V t eq_refl) H1 H2 Hs).
Qed.

Lemma stable_number : stable_read number_text.
Proof. apply stable_of; [|intros; eapply number_text_det; eassumption]. intros t x H. rewrite (number_squeeze _ _ H). exact H. Qed.

Lemma stable_identity : forall idna, stable_read (identity_tag_text idna).
Proof. intros idna. apply stable_of; [apply identity_squeeze|]. intros. eapply identity_tag_det; eassumption. Qed.

Lemma stable_algorithm : forall pre, stable_read (algorithm_text pre).
Proof.
  intros pre. apply stable_of.
  - intros t x H. rewrite (algorithm_squeeze _ _ _ H). exact H.
  - intros t x y _ H1 H2. apply alg_from_str_spec in H1, H2. congruence.
Qed.

Lemma stable_canonicalization : stable_read canonicalization_text.
Proof.
  apply stable_of.
  - intros t x H. rewrite (canonicalization_squeeze _ _ H). exact H.
  - intros t x y _ H1 H2. apply canonicalization_from_str_spec in H1, H2. congruence.
Qed.

Lemma stable_base64 : stable_read base64_text.
Proof. apply stable_of; [apply base64_squeeze|]. intros t x y _ H1 H2. apply base64_text_spec in H1, H2. congruence. Qed.

Lemma stable_signed_headers : stable_read signed_headers_text.
Proof.
  apply stable_of.
  - intros t x [H1 H2]. split; [apply colon_squeeze; assumption|exact H2].
  - intros t x y V [H1 _] [H2 _]. exact (colon_list_det t x y V H1 H2).
Qed.

Lemma stable_copied : stable_read copied_headers_text.
Proof.
  apply stable_of; [apply copied_squeeze|]. intros t x y _ H1 H2. destruct (copied_spec t) as (r & _ & R).
  apply R in H1, H2. congruence.
Qed.

Lemma same_ext : forall tags1 tags2, map squeeze_tag (map blank_b (pairs_of tags1)) = map squeeze_tag (map blank_b (pairs_of tags2)) ->
  map squeeze_tag (ext_tags known_sig_tags tags1) = map squeeze_tag (ext_tags known_sig_tags tags2).
Proof.
  induction tags1 as [|[n1 v1] tags1 IH]; intros [|[n2 v2] tags2] H; try discriminate H; [reflexivity|].
  cbn [pairs_of map tag_name tag_value] in H. apply cons_eq in H as [Ht H]. cbn [ext_tags tag_name tag_value].
  assert (n1 = n2) as <-.
  { unfold blank_b in Ht. cbn [fst] in Ht. destruct (leqb n1 (lit "b")), (leqb n2 (lit "b")); injection Ht; auto. }
  destruct (mem_str n1 known_sig_tags) eqn:M; [apply IH; exact H|]. cbn [map]. f_equal; [|apply IH; exact H].
  unfold blank_b in Ht. cbn [fst] in Ht. destruct (leqb n1 (lit "b")) eqn:X; [|exact Ht].
  apply leqb_eq in X. subst n1. discriminate M.
Qed.

Lemma same_signature : forall pre idna s1 s2 sig1 sig2, idna_ok idna ->
  sig_from_str pre idna s1 = Val (Ok sig1) -> sig_from_str pre idna s2 = Val (Ok sig2) ->
  squeeze (make_original_dkim_sig s1) = squeeze (make_original_dkim_sig s2) ->
  same_tags_of sig1 sig2.
Proof.
  intros pre idna s1 s2 sig1 sig2 IO H1 H2 Hs.
  apply sig_ok_iff in H1 as (tags1 & T1 & S1). apply sig_ok_iff in H2 as (tags2 & T2 & S2).
  pose proof (same_tags _ _ _ _ T1 T2 Hs) as M.
  assert (forall n, lit n <> lit "b" -> option_map squeeze (get n tags1) = option_map squeeze (get n tags2)) as G
    by (intros n Hn; exact (same_get n _ _ M Hn)).
  destruct (tags_wf _ _ T1) as [N1 W1].
  assert (forall n v, get n tags1 = Some v -> v = [] \/ tag_value_text v) as V.
  { intros n v Hv. unfold get in Hv. apply tag_get_In in Hv; [|exact N1]. rewrite Forall_forall in W1. exact (W1 _ Hv). }
  destruct S1 as (_ & (ta & Ga & Ra) & _ & (tb & Gb & Rb & _) & Rc & (Gd & Rd) & (th & Gh & Rh & _) & Ri & Rl & _ & (Gs & Rs) & Rt & Rx & Rz & Re & _).
  destruct S2 as (_ & (ta' & Ga' & Ra') & _ & (tb' & Gb' & Rb' & _) & Rc' & (Gd' & Rd') & (th' & Gh' & Rh' & _) & Ri' & Rl' & _ & (Gs' & Rs') & Rt' & Rx' & Rz' & Re' & _).
  assert (forall n t t', lit n <> lit "b" -> get n tags1 = Some t -> get n tags2 = Some t' -> squeeze t = squeeze t') as G'.
  { intros n t t' Hn X1 X2. specialize (G n Hn). rewrite X1, X2 in G. injection G as G. exact G. }
  unfold same_tags_of.
  split; [exact (stable_algorithm _ _ _ _ _ (V _ _ Ga) Ra Ra' (G' "a"%string _ _ ltac:(discriminate) Ga Ga'))|].
  split; [exact (stable_base64 _ _ _ _ (V _ _ Gb) Rb Rb' (G' "bh"%string _ _ ltac:(discriminate) Gb Gb'))|].
  split.
  { pose proof (G "c"%string ltac:(discriminate)) as X. pose proof (V "c"%string) as Vc.
    destruct (get "c" tags1) as [tc|], (get "c" tags2) as [tc'|]; try discriminate X; [|congruence].
    injection X as X. exact (stable_canonicalization _ _ _ _ (Vc _ eq_refl) Rc Rc' X). }
  split; [pose proof (G' "d"%string _ _ ltac:(discriminate) Gd Gd') as X; rewrite (domain_black _ _ _ IO Rd), (domain_black _ _ _ IO Rd') in X; exact X|].
  split; [exact (stable_signed_headers _ _ _ _ (V _ _ Gh) Rh Rh' (G' "h"%string _ _ ltac:(discriminate) Gh Gh'))|].
  split; [exact (stable_optional _ _ (stable_identity idna) _ _ _ _ (V "i"%string) Ri Ri' (G "i"%string ltac:(discriminate)))|].
  split; [exact (stable_optional _ _ stable_number _ _ _ _ (V "l"%string) Rl Rl' (G "l"%string ltac:(discriminate)))|].
  split; [pose proof (G' "s"%string _ _ ltac:(discriminate) Gs Gs') as X; rewrite (domain_black _ _ _ IO Rs), (domain_black _ _ _ IO Rs') in X; exact X|].
  split; [exact (stable_optional _ _ stable_number _ _ _ _ (V "t"%string) Rt Rt' (G "t"%string ltac:(discriminate)))|].
  split; [exact (stable_optional _ _ stable_number _ _ _ _ (V "x"%string) Rx Rx' (G "x"%string ltac:(discriminate)))|].
  split.
  { pose proof (G "z"%string ltac:(discriminate)) as X. pose proof (V "z"%string) as Vc.
    destruct (get "z" tags1) as [tc|], (get "z" tags2) as [tc'|]; try discriminate X; [|congruence].
    injection X as X. exact (stable_copied _ _ _ _ (Vc _ eq_refl) Rz Rz' X). }
  rewrite Re, Re'. exact (same_ext _ _ M).
Qed.
