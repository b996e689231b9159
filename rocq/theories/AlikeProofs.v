(** Lemmas for C103: what of a key record matters. *)

From Coq Require Import String List Permutation.
From Verif Require Import Base Utf8 Canon BodyHash Header Domain Signature KeyRecord Crypto TagList Sign Verify
  SpecText SpecCanon SpecHash SpecHeader SpecTag SpecDomain SpecSig SpecRecord SpecSign SpecVerify SpecOutput SpecEnd SpecDkim SpecCause SpecTransit SpecFold SpecAlike
  Base64Proofs TagListProofs SigProofs RecordProofs VerifyProofs VerifyFacts DkimProofs CauseProofs TransitProofs FoldProofs Lib.
Import ListNotations.
Open Scope N_scope.

Section WithEnv.
Variable E : Env.

Lemma alike_sym : forall k k', alike_keys k k' -> alike_keys k' k.
Proof. intros k k' (A & B & H & F). repeat split; try (symmetry; assumption); first [apply H|apply F]. Qed.

(** the records in results *)
Definition alike_found (k k' : option KeyRecord) : Prop :=
  match k, k' with Some k, Some k' => alike_keys k k' | None, None => True | _, _ => False end.

Lemma alike_refl : forall k, alike_keys k k.
Proof. intros k. repeat split; auto. Qed.
Lemma alike_found_refl : forall k, alike_found k k.
Proof. intros [k|]; [apply alike_refl|exact I]. Qed.

Section Signature.
Variables (headers : list HeaderField) (config : Config) (sig : DkimSig) (name s : str).

Lemma key_checks_alike : forall k k' e, alike_keys k k' ->
  first_of (key_checks E headers config sig name s k) e -> first_of (key_checks E headers config sig name s k') e.
Proof.
  intros k k' e (A & B & H & F). apply first_of_iff. unfold key_checks. rewrite A, B. specialize (H (alg_hash (s_algorithm sig))).
  repeat apply Forall2_cons; try apply Forall2_nil; (split; [cbn [fst]|reflexivity]); try apply iff_refl; tauto.
Qed.

Lemma record_alike : forall txt txt' k e, alike_texts E txt txt' -> record_outcome E headers config sig name s txt k e ->
  exists k', record_outcome E headers config sig name s txt' k' e /\ alike_found k k'.
Proof.
  intros txt txt' k e [t|t t' k1 k2 R1 R2 A] H; [exists k; split; [exact H|apply alike_found_refl]|].
  apply record_reads_iff in R1 as (s1 & T1 & P1). apply record_reads_iff in R2 as (s2 & T2 & P2).
  destruct H as [H|x e H1 H2|x r e H1 H2 H3].
  - pose proof (record_text_det _ _ _ H T1) as X. discriminate X.
  - pose proof (record_text_det _ _ _ H1 T1) as X. injection X as ->. congruence.
  - pose proof (record_text_det _ _ _ H1 T1) as X. injection X as ->. assert (r = k1) as -> by congruence.
    exists (Some k2). split; [|exact A]. eapply ro_record; [exact T2|exact P2|]. eapply key_checks_alike; eassumption.
Qed.

Lemma records_alike : forall txts k e, records_outcome E headers config sig name s txts k e -> forall txts', Forall2 (alike_texts E) txts txts' ->
  exists k', records_outcome E headers config sig name s txts' k' e /\ alike_found k k'.
Proof.
  intros txts k e H. induction H as [txt more r H|txt r e H|txt more r e r' e' N H HS IH]; intros txts' F; inversion F as [|? y ? l F1 F2]; subst.
  - destruct (record_alike _ _ _ _ F1 H) as ([k'|] & A & B); [|contradiction]. exists (Some k'). split; [apply rs_success; exact A|exact B].
  - inversion F2; subst. destruct (record_alike _ _ _ _ F1 H) as (k' & A & B). exists k'. split; [apply rs_last; exact A|exact B].
  - destruct (record_alike _ _ _ _ F1 H) as (k1 & A & _). destruct (IH _ F2) as (k' & A' & B'). exists k'. split; [|exact B'].
    eapply rs_more; [|exact A|exact A']. inversion F2; subst; [contradiction|discriminate].
Qed.
End Signature.

Lemma consulted_alike : forall A (R : A -> A -> Prop) l l', Forall2 R l l' -> Forall2 R (consulted l) (consulted l').
Proof.
  intros A R l l' H. destruct H as [|a a' l l' Ha H]; [constructor|]. destruct H as [|b b' l l' Hb H]; [repeat constructor; assumption|].
  destruct H as [|c c' l l' Hc H]; [repeat constructor; assumption|]. cbn [consulted]. constructor; [exact Ha|]. constructor; [exact Hb|]. constructor; [|constructor].
  clear - Hc H. assert (forall l l', Forall2 R l l' -> forall x x' d d', R x x' -> R (last (x :: l) d) (last (x' :: l') d')) as X.
  { clear. induction 1 as [|y y' l l' Hy H IH]; intros x x' d d' Hx; [exact Hx|].
    change (last (x :: y :: l) d) with (last (y :: l) d). change (last (x' :: y' :: l') d') with (last (y' :: l') d'). apply IH. exact Hy. }
  apply X; assumption.
Qed.

Lemma verdict_alike : forall answer answer' headers config now body i name value r,
  (forall s sig p, in_progress E headers config now value s sig -> lookup_pair E sig p -> alike_answers E (answer p) (answer' p)) ->
  verdict E answer headers config now body i name value r ->
  exists r', verdict E answer' headers config now body i name value r' /\ alike_results r r'.
Proof.
  intros answer answer' headers config now body i name value r H V.
  destruct V as [s e V|s sig e V1 V2|s sig p k e V1 V2 V3 V4|s sig p V1 V2 V3|s sig p txts r e V1 V2 V3 V4|s sig p txts r V1 V2 V3 V4];
    try (pose proof (H _ _ _ V1 V2) as A; rewrite V3 in A; inversion A as [e1 E1 E2|l1 l2 F E1 E2]; subst).
  - eexists. split; [eapply vd_format; eassumption|repeat split].
  - eexists. split; [eapply vd_check; eassumption|repeat split].
  - eexists. split; [eapply vd_lookup; try eassumption; symmetry; assumption|repeat split].
  - inversion F; subst. eexists. split; [eapply vd_no_key; try eassumption; symmetry; assumption|repeat split].
  - destruct (records_alike _ _ _ _ _ _ _ _ V4 _ (consulted_alike _ _ _ _ F)) as (k' & A' & B').
    eexists. split; [eapply vd_key; [exact V1|exact V2|symmetry; eassumption|exact A']|]. repeat split. exact B'.
  - destruct (records_alike _ _ _ _ _ _ _ _ V4 _ (consulted_alike _ _ _ _ F)) as (k' & A' & B').
    eexists. split; [eapply vd_body; [exact V1|exact V2|symmetry; eassumption|exact A']|]. repeat split. exact B'.
Qed.

Theorem alike_verification : forall w w' config headers chunks chunks' answer answer' rs rs' i name value r r',
  evaluation E w headers config chunks answer rs -> result_for config headers rs i name value r ->
  evaluation E w' headers config chunks' answer' rs' -> result_for config headers rs' i name value r' ->
  w_clock w i = w_clock w' i -> concat chunks = concat chunks' ->
  (forall s sig p, signature_read E value s (Ok sig) -> lookup_pair E sig p -> alike_answers E (answer p) (answer' p)) ->
  alike_results r r'.
Proof.
  intros w w' config headers chunks chunks' answer answer' rs rs' i name value r r' Ev R Ev' R' T B H.
  destruct (evaluation_verdict _ _ _ _ _ _ _ _ _ _ _ Ev R) as (V & _). destruct (evaluation_verdict _ _ _ _ _ _ _ _ _ _ _ Ev' R') as (V' & _).
  rewrite <- T, <- B in V'. destruct (verdict_alike _ answer' _ _ _ _ _ _ _ _ (fun s sig p P L => H s sig p (proj1 P) L) V) as (r1 & V1 & A).
  rewrite (verdict_det _ _ _ _ _ _ _ _ _ _ _ V' V1). exact A.
Qed.

(** ** Whitespace in records *)

Lemma refolded_items : forall t items t', items_text t items -> refolded t t' -> exists items', items_text t' items' /\ Forall2 refolded items items'.
Proof.
  intros t items t' [C N] R. destruct (refolded_colon_list _ _ _ C R) as (items' & C' & F'). exists items'. split; [split; [exact C'|]|exact F'].
  intros X. apply N. clear - X F'. induction F'; [exact X|]. destruct X as [->|X]; [left|right; auto]. apply refolded_sym in H. apply refolded_nil in H. exact H.
Qed.

Lemma named_black : forall t n, SpecSig.named t n -> Forall (fun c => white c = false) (lit n) -> black t.
Proof. intros t n H B. apply lower_black. unfold SpecSig.named in H. rewrite H. exact B. Qed.

Ltac lit_black := vm_compute; repeat constructor.

(** a name that differs in whitespace is neither recognised, or it is the same *)
Lemma refolded_named : forall t t' n, refolded t t' -> Forall (fun c => white c = false) (lit n) -> (SpecSig.named t n <-> SpecSig.named t' n).
Proof.
  intros t t' n R B. split; intros H.
  - rewrite (refolded_black _ _ R (named_black _ _ H B)). exact H.
  - apply refolded_sym in R. rewrite (refolded_black _ _ R (named_black _ _ H B)). exact H.
Qed.

Lemma refolded_hash_name : forall pre t t' h, refolded t t' -> hash_name pre t h -> hash_name pre t' h.
Proof.
  intros pre t t' h R H.
  assert (forall n, n = "sha256"%string \/ n = "sha1"%string -> (SpecSig.named t n <-> SpecSig.named t' n)) as X
    by (intros n N; apply refolded_named; [exact R|destruct N as [->| ->]; lit_black]).
  pose proof (X _ (or_introl eq_refl)) as X1. pose proof (X _ (or_intror eq_refl)) as X2.
  destruct H; [apply hn_sha256|apply hn_sha1|apply hn_sha1_not|apply hn_unknown]; tauto.
Qed.

Lemma refolded_service_name : forall t t' h, refolded t t' -> service_name t h -> service_name t' h.
Proof.
  intros t t' h R H. assert (SpecSig.named t "email" <-> SpecSig.named t' "email") as X by (apply refolded_named; [exact R|lit_black]).
  assert (t = lit "*" <-> t' = lit "*") as Y.
  { split; intros ->; [|apply refolded_sym in R]; (rewrite (refolded_black _ _ R); [reflexivity|lit_black]). }
  destruct H; [apply sn_any|apply sn_email|apply sn_unknown]; tauto.
Qed.

Lemma refolded_flag_name : forall t t' h, refolded t t' -> flag_name t h -> flag_name t' h.
Proof.
  intros t t' h R H.
  assert (forall n, n = "y"%string \/ n = "s"%string -> (SpecSig.named t n <-> SpecSig.named t' n)) as X
    by (intros n N; apply refolded_named; [exact R|destruct N as [->| ->]; lit_black]).
  pose proof (X _ (or_introl eq_refl)) as X1. pose proof (X _ (or_intror eq_refl)) as X2.
  destruct H; [apply fn_testing|apply fn_nosub|apply fn_unknown]; tauto.
Qed.

Lemma refolded_names : forall A (R : str -> option A -> Prop) t t' l, (forall s s' a, refolded s s' -> R s a -> R s' a) ->
  names_text R t l -> refolded t t' -> names_text R t' l.
Proof.
  intros A R t t' l X (items & I & C) Rf. destruct (refolded_items _ _ _ I Rf) as (items' & I' & F). exists items'. split; [exact I'|].
  clear - X C F. revert items' F. induction C; intros items' F; inversion F; subst; [constructor|apply rc_some|apply rc_none]; eauto.
Qed.

Lemma key_type_black : forall t k, key_type_name t k -> black t.
Proof. intros t k H. destruct H as [H|H]; (eapply named_black; [exact H|lit_black]). Qed.

Lemma record_same_tags : forall pre tags tags' k, Forall2 same_tag (tag_pairs tags) (tag_pairs tags') -> get "n" tags = None ->
  record_of pre tags k -> record_of pre tags' (with_key_tags (ext_tags known_key_tags tags') k).
Proof.
  intros pre tags tags' k F Nn (V & Hh & Kt & No & (tp & P1 & P2) & Sv & Fl & _). unfold record_of, with_key_tags.
  cbn [k_hash_algorithms k_key_type k_notes k_key_data k_service_types k_flags k_ext_tags].
  assert (forall A (R : str -> A -> Prop) n d v, (forall t t' x, R t x -> refolded t t' -> R t' x) -> or_default R d (get n tags) v -> or_default R d (get n tags') v) as GO.
  { intros A R n d v X O. pose proof (get_same n _ _ F) as Y. destruct (get n tags) as [t|].
    - destruct Y as (t' & -> & Rt). cbn in *. eapply X; eassumption.
    - rewrite Y. exact O. }
  split.
  { intros before t after E1 Ht. rewrite E1 in F. unfold tag_pairs in F. rewrite map_app in F. cbn [map] in F.
    apply Forall2_app_inv_r in F as (l1 & l2 & F1 & F2 & E2). inversion F2 as [|x y l l' Hx Hl E3 E4]; subst.
    apply map_eq_app in E2 as (b & r & -> & E5 & E6). apply map_eq_cons in E6 as (u & rest & -> & E7 & E8). destruct Hx as [N1 N2]. rewrite <- E7 in N1, N2. cbn [fst snd] in N1, N2.
    destruct (V b u rest eq_refl) as [-> Vu]; [congruence|]. rewrite Vu in N2. split.
    - subst l1. cbn in F1. inversion F1 as [E9|]. symmetry in H. apply map_eq_nil in H. exact H.
    - apply refolded_black in N2; [exact N2|lit_black]. }
  split; [apply GO; [|exact Hh]; intros t t' x [A B] R; split; [eapply refolded_names; eauto using refolded_hash_name|exact B]|].
  split; [apply GO; [|exact Kt]; intros t t' x A R; rewrite (refolded_black _ _ R (key_type_black _ _ A)); exact A|].
  split; [pose proof (get_same "n" _ _ F) as Y; rewrite Nn in Y; rewrite Y; rewrite Nn in No; exact No|].
  split; [pose proof (get_same "p" _ _ F) as Y; rewrite P1 in Y; destruct Y as (t' & Y1 & Y2); exists t'; split; [exact Y1|eapply refolded_base64; eassumption]|].
  split; [apply GO; [|exact Sv]; intros t t' x [A B] R; split; [eapply refolded_names; eauto using refolded_service_name|exact B]|].
  split; [apply GO; [|exact Fl]; intros t t' x A R; eapply refolded_names; eauto using refolded_flag_name|].
  reflexivity.
Qed.

Theorem folded_record : forall s s' tags k, Forall is_scalar s -> same_folding s s' -> tags_of s tags -> get "n" tags = None -> record_of (env_pre E) tags k ->
  exists ext, record_reads_as E (Ok (as_bytes s')) (with_key_tags ext k) /\ Forall2 same_tag (k_ext_tags k) ext.
Proof.
  intros s s' tags k Sc H T N R. destruct (folding_tags_of _ _ _ T H) as (tags' & T' & F). exists (ext_tags known_key_tags tags'). split.
  - exists s', tags'. split; [eapply folding_scalar; eassumption|]. split; [reflexivity|]. split; [exact T'|]. eapply record_same_tags; eassumption.
  - assert (k_ext_tags k = ext_tags known_key_tags tags) as -> by (unfold record_of in R; tauto). apply ext_same. exact F.
Qed.

(** ** Tags that are the same *)

Lemma recognised_det : forall A (R : str -> option A -> Prop), (forall s a b, R s a -> R s b -> a = b) ->
  forall items l, recognised R items l -> forall l', recognised R items l' -> l' = l.
Proof.
  intros A R D items l H. induction H as [|s a ss l X H IH|s ss l X H IH]; intros l' H'; inversion H' as [|? b ? m Y Z|? ? m Y Z]; subst; [reflexivity| | | |].
  - pose proof (D _ _ _ X Y) as W. injection W as ->. rewrite (IH _ Z). reflexivity.
  - pose proof (D _ _ _ X Y) as W. discriminate W.
  - pose proof (D _ _ _ X Y) as W. discriminate W.
  - apply IH. exact Z.
Qed.

Lemma names_det : forall A (R : str -> option A -> Prop) t l l', (forall s a b, R s a -> R s b -> a = b) -> t = [] \/ tag_value_text t ->
  names_text R t l -> names_text R t l' -> l = l'.
Proof.
  intros A R t l l' D T (items & [C _] & H) (items' & [C' _] & H'). rewrite (colon_list_det _ _ _ T C' C) in H'. symmetry. eapply recognised_det; eassumption.
Qed.

Lemma named_det : forall t m n, SpecSig.named t m -> SpecSig.named t n -> lit m = lit n.
Proof. unfold SpecSig.named. congruence. Qed.
Ltac differ := match goal with A : SpecSig.named ?t _, B : SpecSig.named ?t _ |- _ => solve [pose proof (named_det _ _ _ A B) as X; discriminate X] end.

Lemma hash_name_det : forall pre s a b, hash_name pre s a -> hash_name pre s b -> a = b.
Proof. intros pre s a b H K. destruct H, K; try reflexivity; try congruence; try contradiction; differ. Qed.
Lemma flag_name_det : forall s a b, flag_name s a -> flag_name s b -> a = b.
Proof. intros s a b H K. destruct H, K; try reflexivity; try contradiction; differ. Qed.
Lemma key_type_det : forall s a b, key_type_name s a -> key_type_name s b -> a = b.
Proof. intros s a b H K. destruct H, K; try reflexivity; differ. Qed.

Lemma or_default_det : forall A (R : str -> A -> Prop) d t v v', (forall s, t = Some s -> forall a b, R s a -> R s b -> a = b) ->
  or_default R d t v -> or_default R d t v' -> v = v'.
Proof. intros A R d [s|] v v' D H K; cbn in *; [eapply D; eauto|congruence]. Qed.

Lemma spec_value : forall s n v, tag_spec_text s n v -> v = [] \/ tag_value_text v.
Proof. intros s n v H. destruct H; auto. Qed.
Lemma list_values : forall s tags, tag_list_text s tags -> forall n v, In (n, v) tags -> v = [] \/ tag_value_text v.
Proof.
  intros s tags H. induction H as [s n0 v0 H|s n0 v0 H|s n0 v0 t tags H T IH]; intros n v I; cbn in I;
    (destruct I as [I|I]; [injection I as -> ->; eapply spec_value; exact H|]); [contradiction|contradiction|eauto].
Qed.
Lemma get_value : forall s tags n v, tags_of s tags -> get n tags = Some v -> v = [] \/ tag_value_text v.
Proof.
  intros s tags n v [T N] G. apply tag_get_In in G; [|exact N]. eapply list_values; [exact T|]. apply in_map_iff. exists (mkTag (lit n) v). eauto.
Qed.

Theorem flags_alike : forall s s' tags tags' k k', Forall is_scalar s -> Forall is_scalar s' -> tags_of s tags -> tags_of s' tags' ->
  record_of (env_pre E) tags k -> record_of (env_pre E) tags' k' ->
  get "h" tags = get "h" tags' -> get "k" tags = get "k" tags' -> get "p" tags = get "p" tags' ->
  (In NoSubdomains (k_flags k) <-> In NoSubdomains (k_flags k')) ->
  alike_texts E (Ok (as_bytes s)) (Ok (as_bytes s')).
Proof.
  intros s s' tags tags' k k' S S' T T' R R' Gh Gk Gp F. apply al_record with (k := k) (k' := k'); [exists s, tags; auto|exists s', tags'; auto|].
  destruct R as (_ & Hh & Kt & _ & (tp & P1 & P2) & _). destruct R' as (_ & Hh' & Kt' & _ & (tp' & P1' & P2') & _).
  rewrite <- Gh in Hh'. rewrite <- Gk in Kt'. rewrite <- Gp, P1 in P1'. injection P1' as <-. split; [|split; [|split; [|exact F]]].
  - eapply or_default_det; [|exact Kt|exact Kt']. intros x _ a b. apply key_type_det.
  - apply base64_text_spec in P2, P2'. congruence.
  - assert (k_hash_algorithms k = k_hash_algorithms k') as ->; [|tauto]. eapply or_default_det; [|exact Hh|exact Hh'].
    intros x X a b [A _] [B _]. eapply names_det; [apply (hash_name_det (env_pre E))|eapply get_value; [exact T|exact X]|exact A|exact B].
Qed.

Theorem tags_alike : forall s s' tags tags' k k', Forall is_scalar s -> Forall is_scalar s' -> tags_of s tags -> tags_of s' tags' ->
  record_of (env_pre E) tags k -> record_of (env_pre E) tags' k' ->
  get "h" tags = get "h" tags' -> get "k" tags = get "k" tags' -> get "p" tags = get "p" tags' -> get "t" tags = get "t" tags' ->
  alike_texts E (Ok (as_bytes s)) (Ok (as_bytes s')).
Proof.
  intros s s' tags tags' k k' S S' T T' R R' Gh Gk Gp Gt. eapply (flags_alike s s' tags tags' k k'); try eassumption.
  destruct R as (_ & _ & _ & _ & _ & _ & F & _). destruct R' as (_ & _ & _ & _ & _ & _ & F' & _). rewrite <- Gt in F'.
  assert (k_flags k = k_flags k') as ->; [|tauto]. eapply or_default_det; [|exact F|exact F'].
  intros x X a b A B. eapply names_det; [apply flag_name_det|eapply get_value; [exact T|exact X]|exact A|exact B].
Qed.

Theorem order_alike : forall s s' tags tags' k, Forall is_scalar s -> Forall is_scalar s' -> tags_of s tags -> tags_of s' tags' ->
  record_of (env_pre E) tags k -> Permutation tags tags' ->
  (forall t, In t tags -> tag_name t = lit "v" -> hd_error tags' = Some t) ->
  alike_texts E (Ok (as_bytes s)) (Ok (as_bytes s')).
Proof.
  intros s s' tags tags' k S S' T T' R P V. pose proof T as Q. pose proof T' as Q'. apply tags_of_iff in Q, Q'.
  destruct (record_order (env_pre E) _ _ _ _ k Q Q' P V) as (k' & K' & A1 & A2 & _ & A3 & _ & A4 & _); [apply record_ok_iff; eauto|].
  apply al_record with (k := k) (k' := k'); [exists s, tags; auto|apply record_reads_iff; exists s'; split; [constructor; exact S'|exact K']|].
  unfold alike_keys. rewrite A1, A2, A3, A4. repeat split; auto.
Qed.

End WithEnv.
