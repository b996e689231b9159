(** Proofs about tampering: what a message that verifies has in common with the
    message that was signed. *)

From Coq Require Import String List Permutation.
From Verif Require Import Base Utf8 Canon BodyHash Header Domain Signature KeyRecord Crypto TagList Format Sign Verify
  SpecText SpecCanon SpecHash SpecHeader SpecTag SpecDomain SpecSig SpecRecord SpecFormat SpecSign SpecOutput SpecVerify SpecEnd
  Utf8Proofs TagListProofs HeaderCanonProofs SigProofs OutputProofs OutputParse OriginalProofs WidthProofs OutputChars
  VerifyProofs VerifyKeys VerifyRun VerifyFacts EndProofs Lib TamperText.
Import ListNotations.
Open Scope N_scope.

(** ** Text in which line breaks are followed by whitespace *)

Inductive soft : list N -> Prop :=
| soft_nil : soft []
| soft_char : forall c s, c <> 13 -> c <> 10 -> soft s -> soft (c :: s)
| soft_break : forall w s, w = 32 \/ w = 9 -> soft s -> soft (13 :: 10 :: w :: s).

Lemma soft_app : forall a b, soft a -> soft b -> soft (a ++ b).
Proof. induction 1; intros H'; cbn [app]; [exact H'|apply soft_char; auto|apply soft_break; auto]. Qed.

Lemma soft_chars : forall s, Forall (fun c => c <> 13 /\ c <> 10) s -> soft s.
Proof. induction 1 as [|c s [H1 H2] _ IH]; constructor; assumption. Qed.

Lemma soft_crlf : forall a b, soft (a ++ 13 :: 10 :: b) -> exists w b', b = w :: b' /\ (w = 32 \/ w = 9).
Proof.
  intros a b H. remember (a ++ 13 :: 10 :: b) as s eqn:X. revert a X. induction H; intros a X.
  - destruct a; discriminate X.
  - destruct a as [|d a]; cbn [app] in X; injection X as X1 X2; [congruence|]. eapply IHsoft. exact X2.
  - destruct a as [|d a]; cbn [app] in X; [injection X as <-; eauto|]. apply cons_eq in X as [_ X].
    destruct a as [|d2 a]; cbn [app] in X; [discriminate X|]. apply cons_eq in X as [_ X].
    destruct a as [|d3 a]; cbn [app] in X; [injection X as -> _; destruct H; discriminate|]. apply cons_eq in X as [_ X]. eapply IHsoft. exact X.
Qed.

(** a field in canonical form: does not start with whitespace either *)
Definition item (s : list N) : Prop := soft s /\ exists c s', s = c :: s' /\ c <> 32 /\ c <> 9.

Lemma item_start : forall xs l, Forall item xs -> item l -> exists c s', concat (map (fun f => f ++ [13; 10]) xs) ++ l = c :: s' /\ c <> 32 /\ c <> 9.
Proof.
  intros xs l Hx Hl. destruct Hx as [|x xs (_ & c & s' & -> & H1 & H2) _].
  - cbn. apply Hl.
  - cbn. eauto.
Qed.

Lemma head_unique : forall x y r1 r2, item x -> item y -> (exists c s', r1 = c :: s' /\ c <> 32 /\ c <> 9) ->
  (exists c s', r2 = c :: s' /\ c <> 32 /\ c <> 9) -> x ++ 13 :: 10 :: r1 = y ++ 13 :: 10 :: r2 -> x = y /\ r1 = r2.
Proof.
  assert (forall x r1 r2 k, item (x ++ k) -> (exists c s', r2 = c :: s' /\ c <> 32 /\ c <> 9) ->
    13 :: 10 :: r2 = k ++ 13 :: 10 :: r1 -> k = [] /\ r2 = r1) as L.
  { intros x r1 r2 k [S _] (c & s' & -> & C1 & C2) E. destruct k as [|a k]; [injection E as E; auto|].
    cbn [app] in E. injection E as <- E. destruct k as [|b k]; cbn [app] in E; [discriminate E|]. injection E as <- E.
    apply soft_crlf in S as (w & b' & -> & W). cbn [app] in E. injection E as <- _. destruct W; congruence. }
  intros x y r1 r2 Hx Hy R1 R2 E. apply app_eq_app in E as (k & [[-> E]|[-> E]]).
  - destruct (L _ _ _ _ Hx R2 E) as [-> ->]. rewrite app_nil_r. auto.
  - destruct (L _ _ _ _ Hy R1 E) as [-> ->]. rewrite app_nil_r. auto.
Qed.

Lemma last_unique : forall x r m, item m -> (exists c s', r = c :: s' /\ c <> 32 /\ c <> 9) -> m <> x ++ 13 :: 10 :: r.
Proof. intros x r m [S _] (c & s' & -> & C1 & C2) ->. apply soft_crlf in S as (w & b' & [= <- _] & W). destruct W; congruence. Qed.

Lemma items_unique : forall xs ys l m, Forall item xs -> Forall item ys -> item l -> item m ->
  concat (map (fun f => f ++ [13; 10]) xs) ++ l = concat (map (fun f => f ++ [13; 10]) ys) ++ m -> xs = ys /\ l = m.
Proof.
  induction xs as [|x xs IH]; intros ys l m Hx Hy Hl Hm E.
  - destruct ys as [|y ys]; [auto|]. exfalso. cbn [map concat] in E. rewrite <- !app_assoc in E. cbn [app] in E.
    apply Forall_inv_tail in Hy. exact (last_unique _ _ _ Hl (item_start ys m Hy Hm) E).
  - destruct ys as [|y ys].
    + exfalso. cbn [map concat] in E. rewrite <- !app_assoc in E. cbn [app] in E. symmetry in E.
      apply Forall_inv_tail in Hx. exact (last_unique _ _ _ Hm (item_start xs l Hx Hl) E).
    + cbn [map concat] in E. rewrite <- !app_assoc in E. cbn [app] in E. pose proof (Forall_inv Hx). pose proof (Forall_inv Hy).
      apply Forall_inv_tail in Hx, Hy. apply head_unique in E as [-> E]; auto using item_start. apply IH in E as [-> ->]; auto.
Qed.

(** ** Canonical fields *)

Lemma soft_wsps : forall w, wsps w -> soft w.
Proof. intros w H. apply soft_chars. eapply Forall_impl; [|exact H]. cbn beta. intros; lia. Qed.

Lemma soft_fws : forall f, ofws f -> soft f.
Proof.
  intros f [->|(w & W & N & [->|(w0 & W0 & ->)])]; [constructor|apply soft_wsps; exact W|].
  apply soft_app; [apply soft_wsps; exact W0|]. destruct w as [|c w]; [contradiction|]. inv W. apply soft_break; [assumption|].
  apply soft_wsps. assumption.
Qed.

Lemma soft_name : forall n, tag_name_text n -> soft n.
Proof.
  intros n (c & n' & -> & H1 & H2). apply soft_chars. constructor.
  - unfold alpha in H1. lia.
  - eapply Forall_impl; [|exact H2]. intros d. unfold alnum_, alpha. lia.
Qed.

Lemma soft_value : forall v, tag_value_text v -> soft v.
Proof.
  induction 1; (constructor; [unfold valchar in H; lia|unfold valchar in H; lia|]); [constructor|].
  apply soft_app; [apply soft_fws|]; assumption.
Qed.

Lemma soft_eq : soft [61].
Proof. repeat constructor; discriminate. Qed.
Lemma soft_semi : soft [59].
Proof. repeat constructor; discriminate. Qed.

Lemma soft_tags : forall s tags, tag_list_text s tags -> soft s.
Proof.
  assert (forall p n v, tag_spec_text p n v -> soft p) as P.
  { intros p n v H. destruct H; auto 20 using soft_app, soft_fws, soft_name, soft_value, soft_eq. }
  induction 1; eauto 10 using soft_app, soft_semi.
Qed.

Lemma utf8_soft : forall c, c <> 13 -> c <> 10 -> soft (utf8_char c).
Proof.
  intros c H1 H2. apply soft_chars. destruct (c <? 128) eqn:L.
  - rewrite utf8_char_ascii by lia. constructor; [lia|constructor].
  - unfold utf8_char. repeat match goal with |- context [if ?b then _ else _] => destruct b end; repeat constructor; lia.
Qed.

Lemma soft_bytes : forall s, soft s -> soft (as_bytes s).
Proof.
  induction 1; [constructor| |].
  - change (as_bytes (c :: s)) with (utf8_char c ++ as_bytes s). apply soft_app; [apply utf8_soft; assumption|assumption].
  - change (as_bytes (13 :: 10 :: w :: s)) with (utf8_char 13 ++ utf8_char 10 ++ utf8_char w ++ as_bytes s).
    rewrite !utf8_char_ascii by lia. apply soft_break; assumption.
Qed.

Lemma soft_plain : forall l, plain l -> soft l.
Proof. intros l H. apply soft_chars. eapply Forall_impl; [|exact H]. cbn beta. intros; lia. Qed.

Lemma soft_body : forall v, field_body v -> soft v.
Proof.
  intros v (first & more & -> & P & M). apply soft_app; [apply soft_plain; exact P|].
  induction M as [|l more [Pl ((w & l' & -> & W) & _)] M IH]; cbn [map concat]; [constructor|]. apply soft_app; [|exact IH].
  cbn [app]. apply soft_break; [exact W|]. apply soft_plain. inv Pl. assumption.
Qed.

Lemma soft_relaxed : forall v, soft (unwords (words v)).
Proof.
  intros v. apply soft_chars. pose proof (words_ok v) as H. induction H as [|w ws [_ W] H IH]; [constructor|].
  assert (Forall (fun c => c <> 13 /\ c <> 10) w) as W'.
  { apply Forall_forall. intros c Hc. rewrite forallb_forall in W. specialize (W c Hc). unfold white in W. lia. }
  destruct ws as [|w2 ws]; [exact W'|]. rewrite unwords_cons by discriminate. apply Forall_app. split; [exact W'|].
  constructor; [lia|exact IH].
Qed.

Lemma name_valid : forall n, field_name n -> valid_name n.
Proof. intros n [H1 H2]. split; [exact H1|]. eapply Forall_impl; [|exact H2]. unfold ftext. intros; lia. Qed.

Lemma item_field : forall alg (f : HeaderField), valid_name (fst f) -> soft (snd f) -> item (canonical_field alg f).
Proof.
  intros alg [n v] Hn Hv. cbn [fst snd] in *.
  assert (forall m x, valid_name m -> soft x -> item (m ++ [58] ++ x)) as L.
  { intros m x [M1 M2] Hx. destruct m as [|c m]; [contradiction|]. split.
    - apply soft_app; [apply soft_chars; eapply Forall_impl; [|exact M2]; cbn beta; intros; lia|].
      apply soft_app; [repeat constructor; discriminate|exact Hx].
    - inv M2. cbn [app]. exists c, (m ++ 58 :: x). split; [reflexivity|lia]. }
  destruct alg; apply L; auto using valid_name_lower, soft_relaxed.
Qed.

(** ** The last field: the signature's own *)

Lemma squeeze_unwords : forall ws, Forall (fun w => w <> [] /\ forallb (fun c => negb (white c)) w = true) ws -> squeeze (unwords ws) = concat ws.
Proof.
  induction 1 as [|w ws [_ W] H IH]; [reflexivity|].
  assert (squeeze w = w) as X.
  { apply squeeze_black. apply Forall_forall. intros c Hc. rewrite forallb_forall in W. specialize (W c Hc). destruct (white c); [discriminate|reflexivity]. }
  destruct ws as [|w2 ws]; [cbn [unwords concat]; rewrite app_nil_r; exact X|]. rewrite unwords_cons by discriminate.
  rewrite !squeeze_app, IH, X. reflexivity.
Qed.

Lemma concat_words : forall s cur, concat (words_from cur s) = cur ++ squeeze s.
Proof.
  induction s as [|c s IH]; intros cur; cbn [words_from].
  - destruct cur; cbn; rewrite ?app_nil_r; reflexivity.
  - unfold squeeze. cbn [filter]. fold (squeeze s). destruct (white c); cbn [negb].
    + destruct cur; cbn [concat]; rewrite IH; reflexivity.
    + rewrite IH, <- app_assoc. reflexivity.
Qed.

Lemma squeeze_relaxed : forall v, squeeze (unwords (words v)) = squeeze v.
Proof. intros v. rewrite squeeze_unwords by apply words_ok. apply concat_words. Qed.

Lemma canonical_same : forall a1 a2 n1 v1 n2 v2, valid_name n1 -> valid_name n2 ->
  canonical_field a1 (n1, v1) = canonical_field a2 (n2, v2) -> lower n1 = lower n2 /\ squeeze v1 = squeeze v2.
Proof.
  intros a1 a2 n1 v1 n2 v2 N1 N2 H.
  assert (forall a n v, valid_name n -> exists m w, canonical_field a (n, v) = m ++ [58] ++ w /\ valid_name m /\ lower m = lower n /\ squeeze w = squeeze v) as L.
  { intros a n v Hn. destruct a.
    - exists n, v. auto.
    - exists (lower n), (unwords (words v)). split; [reflexivity|]. split; [apply valid_name_lower; exact Hn|].
      split; [apply lower_idem|apply squeeze_relaxed]. }
  destruct (L a1 n1 v1 N1) as (m1 & w1 & E1 & V1 & L1 & S1). destruct (L a2 n2 v2 N2) as (m2 & w2 & E2 & V2 & L2 & S2).
  rewrite E1, E2 in H. apply app_colon_inj in H as [-> ->]; auto using valid_name_no_colon. split; congruence.
Qed.

Lemma squeeze_bytes : forall s, squeeze (as_bytes s) = as_bytes (squeeze s).
Proof.
  induction s as [|c s IH]; [reflexivity|]. change (as_bytes (c :: s)) with (utf8_char c ++ as_bytes s).
  rewrite squeeze_app, IH. destruct (c <? 128) eqn:L.
  - rewrite utf8_char_ascii by lia. unfold squeeze. cbn [filter]. destruct (negb (white c)); [|reflexivity].
    cbn [app filter]. change (as_bytes (c :: filter (fun c0 => negb (white c0)) s)) with (utf8_char c ++ as_bytes (squeeze s)).
    rewrite utf8_char_ascii by lia. reflexivity.
  - rewrite (squeeze_cons c s) by (apply black_iff; lia). change (as_bytes (c :: squeeze s)) with (utf8_char c ++ as_bytes (squeeze s)).
    f_equal. apply squeeze_black. unfold utf8_char. repeat match goal with |- context [if ?b then _ else _] => destruct b eqn:? end;
      repeat constructor; apply black_iff; lia.
Qed.

Lemma original_scalar : forall pre idna s sig, sig_from_str pre idna s = Val (Ok sig) -> Forall is_scalar s -> Forall is_scalar (make_original_dkim_sig s).
Proof.
  intros pre idna s sig H Hs. apply sig_ok_iff in H as (tags & T & (_ & _ & (v & G & _) & _)).
  destruct (original_spec _ _ _ T G) as (a & f1 & f2 & f3 & f4 & c & _ & _ & _ & _ & _ & _ & E1 & E2). rewrite E2. rewrite E1 in Hs.
  repeat match goal with H : Forall _ (_ ++ _) |- _ => apply Forall_app in H as [? H] end. rewrite !Forall_app. auto 10.
Qed.

Lemma original_soft : forall pre idna s sig, sig_from_str pre idna s = Val (Ok sig) -> soft (as_bytes (make_original_dkim_sig s)).
Proof.
  intros pre idna s sig H. apply sig_ok_iff in H as (tags & T & _). apply tag_list_ok in T as [T ND].
  apply soft_bytes. eapply soft_tags. exact (original_tags _ _ T ND).
Qed.

(** ** Equal input to hashing *)

Section WithEnv.
Variable E : Env.
Notation C := (env_crypto E).
Notation idna := (env_idna E).

Lemma covered_items : forall headers sig, header_fields headers -> Forall item (covered_fields headers sig).
Proof.
  intros headers sig H. unfold covered_fields. apply Forall_map.
  assert (forall names before, Forall (fun f : HeaderField => valid_name (fst f) /\ soft (snd f)) (contributed headers before names)) as L.
  { induction names as [|n names IH]; intros before; cbn [contributed]; [constructor|]. apply Forall_app. split; [|apply IH].
    destruct (kth_from_bottom headers n (S (occurrences n before))) as [f|] eqn:K; [|constructor]. constructor; [|constructor].
    unfold kth_from_bottom in K. apply nth_error_In in K. apply filter_In in K as [K _]. apply in_rev in K.
    unfold header_fields in H. rewrite Forall_forall in H. destruct (H f K) as (H1 & H2 & _). split; [apply name_valid; exact H1|apply soft_body; exact H2]. }
  eapply Forall_impl; [|apply L]. intros f [H1 H2]. apply item_field; assumption.
Qed.

Lemma hashed_header_is : forall headers sig name value,
  signed_digest E headers sig name value = hash_fn C (alg_hash (s_algorithm sig)) (hashed_header headers sig name value).
Proof.
  intros. unfold signed_digest, hashed_header, header_hash_input, covered_fields. rewrite map_map. reflexivity.
Qed.

Lemma same_hashed : forall h1 h2 sig1 sig2 n1 n2 v1 v2, idna_ok idna -> header_fields h1 -> header_fields h2 -> field_name n1 -> field_name n2 ->
  Forall is_scalar v1 -> Forall is_scalar v2 ->
  sig_from_str (env_pre E) idna v1 = Val (Ok sig1) -> sig_from_str (env_pre E) idna v2 = Val (Ok sig2) ->
  hashed_header h1 sig1 n1 v1 = hashed_header h2 sig2 n2 v2 ->
  same_tags_of sig1 sig2 /\ covered_fields h1 sig1 = covered_fields h2 sig2 /\ same_name n1 n2.
Proof.
  intros h1 h2 sig1 sig2 n1 n2 v1 v2 IO H1 H2 N1 N2 S1 S2 P1 P2 H. apply name_valid in N1, N2.
  apply items_unique in H as [HC HL];
    [|apply covered_items; assumption|apply covered_items; assumption| |];
    [|apply item_field; [assumption|eapply original_soft; eassumption]|apply item_field; [assumption|eapply original_soft; eassumption]].
  apply canonical_same in HL as [HN HV]; try assumption. rewrite !squeeze_bytes in HV.
  assert (forall s, Forall is_scalar s -> Forall is_scalar (squeeze s)) as Sq.
  { intros s Hs. apply Forall_forall. intros c Hc. unfold squeeze in Hc. apply filter_In in Hc as [Hc _]. rewrite Forall_forall in Hs. auto. }
  apply as_bytes_inj in HV; [|apply Sq; eapply original_scalar; eassumption|apply Sq; eapply original_scalar; eassumption].
  split; [eapply same_signature; eassumption|]. split; assumption.
Qed.

(** ** Bodies *)

Lemma body_covered : forall config sig body, body_matches E config sig body ->
  hash_fn C (alg_hash (s_algorithm sig)) (covered_body sig body) = s_body_hash sig.
Proof.
  intros config sig body H. unfold body_matches in H. unfold covered_body. destruct (s_body_length sig) as [l|]; [|exact H].
  cbv zeta in H. destruct H as (covered & rest & -> & L & Hh & _). rewrite firstn_app, firstn_all2 by lia.
  replace (N.to_nat l - length covered)%nat with 0%nat by lia. rewrite firstn_O, app_nil_r. exact Hh.
Qed.

Lemma signed_covered : forall r body hashed sig, signed_body E r body hashed (s_body_length sig) -> s_canonicalization sig = r_canonicalization E r ->
  covered_body sig body = hashed.
Proof.
  intros r body hashed sig B Cn. unfold covered_body. rewrite Cn. inversion B as [Bl Bh Bn|cb Bl Bh Bn|n a b Bl La Ecb Bh Bn].
  - reflexivity.
  - subst cb. rewrite Nnat.Nat2N.id. apply firstn_all.
  - rewrite Ecb, firstn_app, firstn_all2 by lia. replace (N.to_nat n - length hashed)%nat with 0%nat by lia. rewrite firstn_O, app_nil_r. reflexivity.
Qed.

(** ** The theorems *)

Theorem same_or_collision : forall headers config sig name value body g, idna_ok idna -> crypto_nonempty C ->
  header_fields headers -> field_name name -> Forall is_scalar value -> sig_from_str (env_pre E) idna value = Val (Ok sig) ->
  body_matches E config sig body -> was_signed E g ->
  alg_hash (r_algorithm E (sg_request E g)) = alg_hash (s_algorithm sig) ->
  digest_of E g = signed_digest E headers sig name value ->
  same_content E headers sig body g \/ collision_with E headers sig name value body g.
Proof.
  intros headers config sig name value body g IO NE Hh Hn Sv P BM Hg HA HD. unfold was_signed in Hg.
  destruct g as [h0 ch0 cl0 j r o]. cbn [sg_headers sg_chunks sg_clock sg_index sg_request sg_output] in *.
  pose proof (field_named E _ _ _ _ _ _ IO Hg) as [_ HF]. destruct Hg as (HO & HR & HT & HZ & HX).
  destruct (signed_output_of _ _ _ _ _ _ _ HO) as (pre & post & n & b64 & O).
  pose proof (output_scalar _ _ _ _ _ _ _ _ _ _ _ _ IO O HR HX) as Sc.
  destruct (output_parses E _ _ _ _ _ _ _ _ _ _ _ IO NE O HR HT HZ) as (sig0 & P0 & W).
  destruct (request_parts _ _ _ _ _ _ _ HO) as (hashed & names & Bd & _ & _ & Qa & Qb & Qc & _).
  pose proof W as (W1 & _ & W3 & W4 & _ & W6 & _ & W8 & _).
  assert (forall h nm v, hashed_header h (so_signature o) nm v = hashed_header h sig0 nm v) as Hsame.
  { intros. unfold hashed_header, covered_fields. rewrite W4, W6. reflexivity. }
  assert (forall b, covered_body (so_signature o) b = covered_body sig0 b) as Bsame.
  { intros. unfold covered_body. rewrite W4, W8. reflexivity. }
  unfold digest_of in HD. cbn [sg_headers sg_chunks sg_clock sg_index sg_request sg_output] in HD. cbv zeta in HD.
  rewrite hashed_header_is, HA in HD.
  assert (forall x y : list N, {x = y} + {x <> y}) as D by (intros; apply (list_eq_dec N.eq_dec)).
  destruct (D (hashed_header h0 (so_signature o) (so_header_name o) (so_header_value o)) (hashed_header headers sig name value)) as [EH|NH].
  2:{ right. left. cbn [sg_headers sg_output]. split; [congruence|congruence]. }
  rewrite Hsame in EH. pose proof (Forall_inv HF) as (Fn & _ & _). cbn [fst signature_field] in Fn.
  destruct HO as (Ht & Hh0 & _).
  destruct (same_hashed _ _ _ _ _ _ _ _ IO Hh Hh0 Hn Fn Sv Sc P P0 (eq_sym EH)) as (ST & SC & _).
  destruct (D (covered_body sig body) (covered_body (so_signature o) (concat ch0))) as [EB|NB].
  - left. exists sig0. cbn [sg_headers sg_chunks sg_request sg_output]. rewrite Bsame in EB. auto 10.
  - right. right. cbn [sg_headers sg_chunks sg_output]. split; [exact NB|].
    rewrite (body_covered _ _ _ BM), (signed_covered _ _ _ _ Bd Qc). destruct ST as (_ & ST & _). rewrite ST, W3, Qb, HA. reflexivity.
Qed.

Lemma consulted_in : forall A (txts : list A) t, In t (consulted txts) -> In t txts.
Proof.
  intros A txts t H. destruct txts as [|a [|b [|c more]]]; try exact H. cbn [consulted] in H.
  destruct H as [->|[->|[<-|[]]]]; [left; reflexivity|right; left; reflexivity|]. right. right.
  assert (forall (l : list A) d, In (last (d :: l) d) (d :: l)) as L.
  { induction l as [|x l IH]; intros d; [left; reflexivity|]. right. specialize (IH x).
    change (last (d :: x :: l) d) with (last (x :: l) d). replace (last (x :: l) d) with (last (x :: l) x); [exact IH|].
    clear. revert x. induction l as [|y l IH]; intros x; [reflexivity|]. change (last (y :: l) x = last (y :: l) d).
    clear IH. revert y. induction l as [|z l IH]; intros y; [reflexivity|]. exact (IH z). }
  apply L.
Qed.

Theorem success_digest : forall w headers config chunks answer rs i name value r, idna_ok idna -> crypto_nonempty C ->
  evaluation E w headers config chunks answer rs -> result_for config headers rs i name value r -> vr_status r = Success ->
  exists sig s p key, vr_signature r = Some sig /\ value = as_bytes s /\ lookup_pair E sig p /\ published_key E answer p key
    /\ verifies E key (alg_hash (s_algorithm sig)) (signed_digest E headers sig name s) (s_signature_data sig)
    /\ forall g, was_signed E g -> alg_hash (r_algorithm E (sg_request E g)) = alg_hash (s_algorithm sig) ->
         digest_of E g = signed_digest E headers sig name s ->
         same_content E headers sig (concat chunks) g \/ collision_with E headers sig name s (concat chunks) g.
Proof.
  intros w headers config chunks answer rs i name value r IO NE Ev RF S.
  destruct (evaluation_verdict _ _ _ _ _ _ _ _ _ _ _ Ev RF) as (V & Hn & Hh & _).
  destruct (verdict_success_record _ _ _ _ _ _ _ _ _ _ V S) as (s & sig & txt & k & p & txts & SR & _ & Hs & _ & LP & A & I & RA & BM).
  destruct RA as (st & key & R1 & R2 & R3 & _ & _ & _ & R7 & _ & R9). inversion SR as [s0 r0 Sc Ev' P|]; subst.
  exists sig, s, p, key. split; [exact Hs|]. split; [reflexivity|]. split; [exact LP|]. split.
  - exists txts, txt, st, k. auto 10 using consulted_in.
  - split; [exact R9|]. intros g Hg HA HD. eapply same_or_collision; eassumption.
Qed.

Theorem success_genuine : forall w headers config chunks answer rs i name value r signings, idna_ok idna -> crypto_nonempty C ->
  evaluation E w headers config chunks answer rs -> result_for config headers rs i name value r -> vr_status r = Success ->
  (forall sig p key, vr_signature r = Some sig -> lookup_pair E sig p -> published_key E answer p key -> genuine E signings key) ->
  exists sig s g, vr_signature r = Some sig /\ value = as_bytes s /\ signings g /\ was_signed E g
    /\ (same_content E headers sig (concat chunks) g \/ collision_with E headers sig name s (concat chunks) g).
Proof.
  intros w headers config chunks answer rs i name value r signings IO NE Ev RF S HG.
  destruct (success_digest _ _ _ _ _ _ _ _ _ _ IO NE Ev RF S) as (sig & s & p & key & H1 & H2 & H3 & H4 & H5 & H6).
  destruct (HG sig p key H1 H3 H4 _ _ _ H5) as (g & G1 & G2 & G3 & G4). exists sig, s, g. auto 10.
Qed.

End WithEnv.
