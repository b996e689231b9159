(** Proofs about builds with debug assertions: signing and verification. *)

From Coq Require Import String List Permutation.
From Verif Require Import Base Utf8 Canon BodyHash Header Domain Signature KeyRecord Crypto TagList Format Sign Verify Dev
  SpecText SpecCanon SpecHash SpecHeader SpecTag SpecDomain SpecSig SpecFormat SpecSign SpecOutput
  Lib Utf8Proofs Base64Proofs HeaderProofs DomainProofs QPProofs QPDecode TagListProofs HeaderCanonProofs
  BodyHashProofs SigProofs FormatProofs SignProofs OutputProofs OriginalProofs DevProofs.
Import ListNotations.
Open Scope N_scope.

(** ** Canonicalization *)

Lemma canonicalize_dev : forall alg name v, alg = Simple \/ field_body v ->
  canonicalize_header_dev alg name v = Val (canonicalize_header alg name v).
Proof.
  intros alg name v H. destruct alg; [reflexivity|]. destruct H as [H|H]; [discriminate|].
  unfold canonicalize_header_dev, canonicalize_header_relaxed_dev, debug_assert.
  assert (field_body_new v = Some v) as -> by (apply field_body_new_spec; auto). reflexivity.
Qed.

Lemma canonicalize_panic : forall name v, ~ field_body v -> canonicalize_header_dev Relaxed name v = Panic.
Proof.
  intros name v H. unfold canonicalize_header_dev, canonicalize_header_relaxed_dev, debug_assert.
  destruct (field_body_new v) as [b|] eqn:E; [|reflexivity]. apply field_body_new_spec in E. tauto.
Qed.

Lemma canon_loop_dev : forall alg rh sel p, Forall (fun f : HeaderField => field_body (snd f)) rh ->
  canon_headers_loop_dev alg rh p sel = Val (canon_headers_loop alg rh p sel).
Proof.
  intros alg rh sel p H. revert p. induction sel as [|n sel IH]; intros p; [reflexivity|].
  cbn [canon_headers_loop_dev canon_headers_loop]. pose proof (find_unprocessed_spec rh 0 p n) as F.
  destruct (find_unprocessed 0 rh p n) as [(i & m & v)|]; [|apply IH].
  destruct F as (k & _ & F & _). apply nth_error_In in F. rewrite Forall_forall in H. apply H in F.
  rewrite canonicalize_dev by auto. cbn [bind]. rewrite IH. reflexivity.
Qed.

Lemma data_hash_dev : forall hash alg canon headers sel name v, header_fields headers ->
  field_body (as_bytes v) ->
  compute_data_hash_dev hash alg canon headers sel name v
  = Val (compute_data_hash hash alg canon headers sel name v).
Proof.
  intros hash alg canon headers sel name v Hh Hv.
  unfold compute_data_hash_dev, compute_data_hash, canonicalize_headers_dev, canonicalize_headers.
  rewrite canon_loop_dev.
  - cbn [bind]. rewrite canonicalize_dev by auto. reflexivity.
  - apply Forall_rev. eapply Forall_impl; [|exact Hh]. intros f. cbv beta. tauto.
Qed.

(** ** Cutting field bodies at a visible character *)

Lemma plain_app : forall a b, plain (a ++ b) <-> plain a /\ plain b.
Proof. intros. unfold plain. apply Forall_app. Qed.

Lemma folded_prefix : forall p b q, b <> 32 -> b <> 9 -> folded (p ++ b :: q) -> folded (p ++ [b]).
Proof.
  intros p b q H1 H2 [(w & l & E & W) _]. split.
  - destruct p as [|x p]; injection E as -> E; [lia|]. exists w, (p ++ [b]). auto.
  - exists b. split; [apply in_app_iff; right; left; reflexivity|auto].
Qed.

Lemma folded_more : forall p q, folded p -> folded (p ++ q).
Proof.
  intros p q [(w & l & -> & W) (c & C1 & C2)]. split; [exists w, (l ++ q); auto|].
  exists c. split; [apply in_app_iff; auto|auto].
Qed.

Definition lines_ok (m : list (list N)) : Prop := Forall (fun l => plain l /\ folded l) m.

Lemma unlines_more : forall f l ls, unlines f (l :: ls) = f ++ 13 :: 10 :: unlines l ls.
Proof. reflexivity. Qed.

Lemma cut_lines : forall b q, b <> 32 -> b <> 9 -> b <> 13 -> b <> 10 -> forall more first p,
  p ++ b :: q = unlines first more -> plain first -> lines_ok more ->
  (exists f m, p ++ [b] = unlines f m /\ plain f /\ lines_ok m /\ (folded first -> folded f))
  /\ field_body (b :: q).
Proof.
  intros b q N1 N2 N3 N4. induction more as [|l ls IH]; intros first p E Hf Hm.
  - unfold unlines in E. cbn [map concat] in E. rewrite app_nil_r in E. subst first.
    apply plain_app in Hf as [P1 P2]. apply Forall_cons_iff in P2 as [P2 P3]. split.
    + exists (p ++ [b]), []. split; [unfold unlines; cbn; rewrite app_nil_r; reflexivity|].
      split; [apply plain_app; split; [exact P1|constructor; [exact P2|constructor]]|]. split; [constructor|].
      apply folded_prefix; assumption.
    + exists (b :: q), []. split; [unfold unlines; cbn; rewrite app_nil_r; reflexivity|].
      split; [constructor; assumption|constructor].
  - rewrite unlines_more in E. apply Forall_cons_iff in Hm as [[L1 L2] Hm].
    destruct (app_eq_app _ _ _ _ E) as (r & [[E1 E2]|[E1 E2]]).
    + (* beyond the first line *)
      destruct r as [|x [|y r]]; cbn [app] in E2.
      * injection E2 as E2 _. congruence.
      * injection E2 as _ E2 _. congruence.
      * injection E2 as <- <- E2. destruct (IH l r (eq_sym E2) L1 Hm) as [(f & m & F1 & F2 & F3 & F4) B].
        split; [|exact B]. exists first, (f :: m). rewrite unlines_more, <- F1, E1, <- app_assoc. cbn [app].
        split; [reflexivity|]. split; [exact Hf|]. split; [constructor; auto|auto].
    + (* in the first line *)
      destruct r as [|x r]; cbn [app] in E2; [congruence|]. injection E2 as -> E2. subst first.
      apply plain_app in Hf as [P1 P2]. apply Forall_cons_iff in P2 as [P2 P3]. split.
      * exists (p ++ [x]), []. split; [unfold unlines; cbn; rewrite app_nil_r; reflexivity|].
        split; [apply plain_app; split; [exact P1|constructor; [exact P2|constructor]]|]. split; [constructor|].
        apply folded_prefix; assumption.
      * exists (x :: r), (l :: ls). rewrite unlines_more. split; [rewrite E2; reflexivity|].
        split; [constructor; assumption|constructor; auto].
Qed.

Lemma field_body_cut : forall p b q, 33 <= b <= 126 -> field_body (p ++ b :: q) ->
  field_body (p ++ [b]) /\ field_body (b :: q).
Proof.
  intros p b q V (first & more & E & Hf & Hm).
  destruct (cut_lines b q ltac:(lia) ltac:(lia) ltac:(lia) ltac:(lia) more first p E Hf Hm)
    as [(f & m & F1 & F2 & F3 & _) B].
  split; [exists f, m; auto|exact B].
Qed.

Lemma join_lines : forall b q m2, b <> 13 -> lines_ok m2 -> plain (b :: q) -> forall more first p,
  p ++ [b] = unlines first more -> plain first -> lines_ok more ->
  exists f m, p ++ unlines (b :: q) m2 = unlines f m /\ plain f /\ lines_ok m /\ (folded first -> folded f).
Proof.
  intros b q m2 N3 H2 Pq. induction more as [|l ls IH]; intros first p E Hf Hm.
  - unfold unlines in E. cbn [map concat] in E. rewrite app_nil_r in E. subst first.
    exists (p ++ b :: q), m2. split; [unfold unlines; rewrite <- app_assoc; reflexivity|].
    apply plain_app in Hf as [P1 _]. split; [apply plain_app; auto|]. split; [exact H2|].
    intros X. apply (folded_more _ q) in X. rewrite <- app_assoc in X. exact X.
  - rewrite unlines_more in E. apply Forall_cons_iff in Hm as [[L1 L2] Hm].
    destruct (app_eq_app _ _ _ _ E) as (r & [[E1 E2]|[E1 E2]]).
    + destruct r as [|x [|y r]]; cbn [app] in E2.
      * injection E2 as E2 _. congruence.
      * injection E2 as _ _ E2. destruct L2 as [(w & l' & -> & _) _]. discriminate E2.
      * injection E2 as <- <- E2. destruct (IH l r (eq_sym E2) L1 Hm) as (f & m & F1 & F2 & F3 & F4).
        exists first, (f :: m). rewrite unlines_more, <- F1, E1, <- app_assoc. cbn [app].
        split; [reflexivity|]. split; [exact Hf|]. split; [constructor; auto|auto].
    + destruct r as [|x r]; cbn [app] in E2; [congruence|]. injection E2 as _ E2.
      destruct r; discriminate E2.
Qed.

Lemma field_body_join : forall p b q, 33 <= b <= 126 -> field_body (p ++ [b]) -> field_body (b :: q) ->
  field_body (p ++ b :: q).
Proof.
  intros p b q V (f1 & m1 & E1 & P1 & M1) (f2 & m2 & E2 & P2 & M2).
  destruct f2 as [|x f2].
  { destruct m2 as [|l ls]; cbn in E2; [discriminate|]. injection E2 as -> _. lia. }
  assert (x = b) as -> by (rewrite unlines_cons in E2; congruence).
  destruct (join_lines b f2 m2 ltac:(lia) M2 P2 m1 f1 p E1 P1 M1) as (f & m & F1 & F2 & F3 & _).
  exists f, m. rewrite E2. auto.
Qed.

Lemma field_body_cons : forall b q, 33 <= b <= 126 -> field_body q -> field_body (b :: q).
Proof.
  intros b q V (f & m & -> & P & M). exists (b :: f), m. rewrite unlines_cons. split; [reflexivity|].
  split; [constructor; [lia|exact P]|exact M].
Qed.

(** ** What was signed, for the verifier *)

Lemma b_prefix_shape : forall s q, b_tag_prefix s = Some q -> exists a x, q = a ++ [61] /\ s = a ++ [61] ++ x.
Proof.
  intros s q. unfold b_tag_prefix. destruct (strip_tag_name_and_equals s) as [[rest n]|] eqn:E; [|discriminate].
  apply name_equals_sound in E as (f1 & f2 & _ & _ & _ & ->).
  destruct (leqb n (lit "b")); [|discriminate]. intros H.
  match type of H with Some ?y = _ => assert (q = y) as -> by congruence end. clear H.
  exists (f1 ++ n ++ f2), rest. split; [|rewrite <- !app_assoc; reflexivity].
  replace (f1 ++ n ++ f2 ++ [61] ++ rest) with (((f1 ++ n ++ f2) ++ [61]) ++ rest) by (rewrite <- !app_assoc; reflexivity).
  generalize ((f1 ++ n ++ f2) ++ [61]). intros y. rewrite app_length.
  replace (length y + length rest - length rest)%nat with (length y + 0)%nat by lia.
  rewrite firstn_app_2. cbn [firstn]. apply app_nil_r.
Qed.

Lemma b_prefix_dev : forall s, b_tag_prefix_dev s = Val (b_tag_prefix s).
Proof.
  intros s. unfold b_tag_prefix_dev, b_tag_prefix, checked_sub. rewrite name_equals_dev. cbn [bind].
  destruct (strip_tag_name_and_equals s) as [[rest n]|] eqn:E; [|reflexivity].
  apply name_equals_sound in E as (f1 & f2 & _ & _ & _ & ->). destruct (leqb n (lit "b")); [|reflexivity].
  rewrite (proj2 (Nat.leb_le _ _)); [reflexivity|]. rewrite !app_length. lia.
Qed.

Lemma original_dev : forall s, make_original_dkim_sig_dev s = Val (make_original_dkim_sig s).
Proof.
  intros s. unfold make_original_dkim_sig_dev, make_original_dkim_sig.
  induction (split_on 59 s) as [|p ps IH]; [reflexivity|].
  cbn [original_loop_dev original_loop]. rewrite b_prefix_dev. cbn [bind].
  destruct ps as [|p2 ps].
  - destruct (is_nil p); reflexivity.
  - destruct (b_tag_prefix p); [reflexivity|]. rewrite IH. reflexivity.
Qed.

Lemma original_shape : forall ps, original_loop ps = join 59 ps \/
  exists a x c, join 59 ps = a ++ [61] ++ x ++ c /\ original_loop ps = a ++ [61] ++ c
    /\ (c = [] \/ exists c', c = 59 :: c').
Proof.
  induction ps as [|p ps IH]; [left; reflexivity|]. destruct ps as [|p2 ps].
  - cbn [original_loop join]. destruct (is_nil p); [left; reflexivity|].
    destruct (b_tag_prefix p) as [q|] eqn:E; [|left; reflexivity].
    apply b_prefix_shape in E as (a & x & -> & ->). right. exists a, x, []. rewrite !app_nil_r. auto.
  - rewrite join_cons by discriminate. remember (p2 :: ps) as tl eqn:Etl.
    assert (original_loop (p :: tl) = match b_tag_prefix p with
      | Some q => q ++ [59] ++ join_semi tl | None => p ++ [59] ++ original_loop tl end) as ->.
    { rewrite Etl. reflexivity. }
    destruct (b_tag_prefix p) as [q|] eqn:E.
    + apply b_prefix_shape in E as (a & x & -> & ->). right. exists a, x, (59 :: join 59 tl).
      rewrite join_semi_join, <- !app_assoc. cbn [app]. eauto.
    + destruct IH as [->|(a & x & c & E1 & E2 & Hc)]; [left; reflexivity|]. right.
      exists (p ++ 59 :: a), x, c. rewrite E1, E2, <- !app_assoc. cbn [app]. auto.
Qed.

Lemma original_body : forall v, field_body (as_bytes v) -> field_body (as_bytes (make_original_dkim_sig v)).
Proof.
  intros v H. unfold make_original_dkim_sig. destruct (original_shape (split_on 59 v)) as [->|(a & x & c & E1 & -> & Hc)].
  - rewrite join_split_on. exact H.
  - rewrite join_split_on in E1. rewrite E1 in H. rewrite !as_bytes_app in *. change (as_bytes [61]) with [61] in *.
    cbn [app] in *. apply field_body_cut in H as [H1 H2]; [|lia].
    destruct Hc as [->|(c' & ->)]; [exact H1|].
    rewrite as_bytes_cons in *. change (utf8_char 59) with [59] in *. cbn [app] in *.
    change (61 :: as_bytes x ++ 59 :: as_bytes c') with ((61 :: as_bytes x) ++ 59 :: as_bytes c') in H2.
    apply field_body_cut in H2 as [_ H2]; [|lia].
    apply field_body_join; [lia|exact H1|]. apply field_body_cons; [lia|exact H2].
Qed.

(** ** The verifier *)

Section Verifying.
Variable E : Env.
Notation C := (env_crypto E).
Notation idna := (env_idna E).

Lemma parse_cache_dev : forall c, parse_and_cache_dev E c = parse_and_cache E c.
Proof. intros [[s|e]|r]; try reflexivity. cbn. rewrite record_dev. reflexivity. Qed.

Lemma perform_dev : forall headers key sig name v, header_fields headers -> field_body (as_bytes v) ->
  perform_verification_dev E headers key sig name v = Val (perform_verification E headers key sig name v).
Proof.
  intros. unfold perform_verification_dev, perform_verification. rewrite original_dev. cbn [bind].
  rewrite data_hash_dev; [reflexivity|assumption|]. apply original_body. assumption.
Qed.

(** what is known of a task *)
Definition task_ok (t : VerifyTask) : Prop := forall v, vt_header_value t = Some v -> field_body (as_bytes v).

Lemma set_outcome_ok : forall t s r, task_ok t -> task_ok (set_outcome t s r).
Proof. intros t s r H v. apply H. Qed.

Lemma records_dev : forall sig headers config, header_fields headers -> forall cs t, task_ok t ->
  try_records_dev E t sig headers config cs = try_records E t sig headers config cs.
Proof.
  intros sig headers config Hh. induction cs as [|c cs IH]; intros t Ht; [reflexivity|].
  cbn [try_records_dev try_records]. rewrite parse_cache_dev.
  destruct (parse_and_cache E c) as [[[k|e] c']|]; cbn [bind]; [|rewrite IH by (apply set_outcome_ok; exact Ht); reflexivity|reflexivity].
  destruct (validate_key_record E _ _ k _ _) as [[e|]|]; cbn [bind]; [rewrite IH by (apply set_outcome_ok; exact Ht); reflexivity| |reflexivity].
  destruct (read_verifying_key E _ _) as [key|e]; [|rewrite IH by (apply set_outcome_ok; exact Ht); reflexivity].
  destruct (validate_verifying_key E key config) as [e|]; [rewrite IH by (apply set_outcome_ok; exact Ht); reflexivity|].
  destruct (vt_header_name t) as [n|]; [|reflexivity]. destruct (vt_header_value t) as [v|] eqn:Ev; [|reflexivity].
  rewrite perform_dev by (auto). cbn [bind].
  destruct (perform_verification E headers key sig n v) as [e|]; [|reflexivity].
  rewrite IH by (apply set_outcome_ok; exact Ht). reflexivity.
Qed.

Lemma try_records_ok : forall sig headers config cs t t' cs', task_ok t ->
  try_records E t sig headers config cs = Val (t', cs') -> task_ok t'.
Proof.
  intros sig headers config. induction cs as [|c cs IH]; intros t t' cs' Ht; cbn [try_records]; [intros X; injection X as <- _; exact Ht|].
  assert (forall s r c', (let! (t0, cs0) := try_records E (set_outcome t s r) sig headers config cs in Val (t0, c' :: cs0))
    = Val (t', cs') -> task_ok t') as X.
  { intros s r c'. destruct (try_records E (set_outcome t s r) sig headers config cs) as [[t0 cs0]|] eqn:R; cbn [bind]; [|discriminate].
    intros H. injection H as <- _. eapply IH; [|exact R]. apply set_outcome_ok. exact Ht. }
  destruct (parse_and_cache E c) as [[[k|e] c']|]; cbn [bind]; [|apply X|discriminate].
  destruct (validate_key_record E _ _ k _ _) as [[e|]|]; cbn [bind]; [apply X| |discriminate].
  destruct (read_verifying_key E _ _) as [key|e]; [|apply X].
  destruct (validate_verifying_key E key config) as [e|]; [apply X|].
  destruct (vt_header_name t) as [n|]; [|discriminate]. destruct (vt_header_value t) as [v|]; [|discriminate].
  destruct (perform_verification E headers key sig n v) as [e|]; [apply X|].
  intros H. injection H as <- _. apply set_outcome_ok. exact Ht.
Qed.

Lemma task_dev : forall t headers config r, header_fields headers -> task_ok t ->
  verify_task_dev E t headers config r = verify_task E t headers config r.
Proof.
  intros t headers config r Hh Ht. unfold verify_task_dev, verify_task.
  destruct (vt_signature t) as [sig|]; [|reflexivity]. destruct r as [cs|e]; [|reflexivity].
  destruct (is_nil cs); [reflexivity|]. rewrite records_dev by assumption. reflexivity.
Qed.

Lemma verify_task_ok : forall t headers config r t' r', task_ok t ->
  verify_task E t headers config r = Val (t', r') -> task_ok t'.
Proof.
  intros t headers config r t' r' Ht. unfold verify_task.
  destruct (vt_signature t) as [sig|]; [|discriminate]. destruct r as [cs|e].
  - destruct (is_nil cs); [discriminate|]. destruct (try_records E t sig headers config cs) as [[t0 cs0]|] eqn:R; [|discriminate].
    cbn [bind]. intros H. injection H as <- _. eapply try_records_ok; eassumption.
  - intros H. injection H as <- _. apply set_outcome_ok. exact Ht.
Qed.

Lemma selected_dev : forall headers config idx ts r, header_fields headers -> Forall task_ok ts ->
  verify_selected_dev E headers config idx r ts = verify_selected E headers config idx r ts
  /\ forall ts', verify_selected E headers config idx r ts = Val ts' -> Forall task_ok ts'.
Proof.
  intros headers config idx ts r Hh H. revert r. induction H as [|t ts Ht _ IH]; intros r.
  - cbn. split; [reflexivity|]. intros ts' X. injection X as <-. constructor.
  - cbn [verify_selected_dev verify_selected]. rewrite task_dev by assumption.
    destruct (mem_nat (vt_index t) idx).
    + destruct (verify_task E t headers config r) as [[t' r']|] eqn:R; cbn [bind]; [|split; [reflexivity|discriminate]].
      apply verify_task_ok in R; [|exact Ht]. destruct (IH r') as [-> I]. split; [reflexivity|].
      destruct (verify_selected E headers config idx r' ts) as [us|]; cbn [bind]; [|discriminate].
      intros ts' X. injection X as <-. constructor; [exact R|apply I; reflexivity].
    + destruct (IH r) as [-> I]. split; [reflexivity|].
      destruct (verify_selected E headers config idx r ts) as [us|]; cbn [bind]; [|discriminate].
      intros ts' X. injection X as <-. constructor; [exact Ht|apply I; reflexivity].
Qed.

Lemma results_dev : forall headers config rs ts, header_fields headers -> Forall task_ok ts ->
  process_results_dev E headers config rs ts = process_results E headers config rs ts.
Proof.
  intros headers config rs ts Hh. revert ts. induction rs as [|[idx r] rs IH]; intros ts H; [reflexivity|].
  cbn [process_results_dev process_results].
  destruct (selected_dev headers config idx ts (map_lookup_result r) Hh H) as [-> X].
  destruct (verify_selected E headers config idx (map_lookup_result r) ts) as [us|]; cbn [bind]; [|reflexivity].
  apply IH. apply X. reflexivity.
Qed.

Lemma find_dev : forall headers config clock dh, Forall (fun x : nat * HeaderField => field_body (snd (snd x))) dh ->
  find_tasks_dev E headers config clock dh = find_tasks E headers config clock dh
  /\ forall ts, find_tasks E headers config clock dh = Val ts -> Forall task_ok ts.
Proof.
  intros headers config clock dh H. induction H as [|[i [n v]] dh Hv _ IH].
  - cbn. split; [reflexivity|]. intros ts X. injection X as <-. constructor.
  - cbn [find_tasks_dev find_tasks]. cbn [snd] in Hv. destruct IH as [-> I].
    assert (find_signature_dev E headers config (clock i) i n v = find_signature E headers config (clock i) i n v
      /\ forall t, find_signature E headers config (clock i) i n v = Val t -> task_ok t) as [-> F].
    { unfold find_signature_dev, find_signature. destruct (from_utf8 v) as [s|] eqn:Es.
      - rewrite sig_dev. split; [reflexivity|]. destruct (sig_from_str (env_pre E) idna s) as [[sig|e]|]; cbn [bind]; [| |discriminate].
        + destruct (validate_signature E sig (clock i) headers config); intros t X; injection X as <-; intros w W; [discriminate|].
          injection W as <-. apply from_utf8_spec in Es as [_ Es]. rewrite Es. exact Hv.
        + intros t X; injection X as <-; intros w W. discriminate.
      - split; [reflexivity|]. intros t X; injection X as <-; intros w W. discriminate. }
    split; [reflexivity|].
    destruct (find_signature E headers config (clock i) i n v) as [t|]; cbn [bind]; [|discriminate].
    destruct (find_tasks E headers config clock dh) as [us|]; cbn [bind]; [|discriminate].
    intros ts X. injection X as <-. constructor; [apply F; reflexivity|apply I; reflexivity].
Qed.

Lemma firstn_In : forall {A} n (l : list A) x, In x (firstn n l) -> In x l.
Proof. intros A n l x H. rewrite <- (firstn_skipn n l). apply in_app_iff. auto. Qed.

Lemma enumerate_Forall : forall (P : HeaderField -> Prop) l i, Forall P l -> Forall (fun x : nat * HeaderField => P (snd x)) (enumerate i l).
Proof. intros P l i H. revert i. induction H; intros i; constructor; auto. Qed.

Theorem verify_header_dev_eq : forall w headers config, header_fields headers ->
  verify_header_dev E w headers config = verify_header E w headers config.
Proof.
  intros w headers config Hh. unfold verify_header_dev, verify_header, find_signatures_dev, find_signatures.
  destruct (find_dev headers config (w_clock w) (dkim_headers headers config)) as [-> F].
  { unfold dkim_headers. apply Forall_forall. intros x X. apply firstn_In in X. apply filter_In in X as [X _].
    revert x X. apply Forall_forall. apply (enumerate_Forall (fun f => field_body (snd f))).
    eapply Forall_impl; [|exact Hh]. intros f. cbv beta. tauto. }
  destruct (find_tasks E headers config (w_clock w) (dkim_headers headers config)) as [ts|]; cbn [bind]; [|reflexivity].
  specialize (F _ eq_refl). destruct (is_nil ts); [reflexivity|].
  destruct (add_lookups idna [] ts) as [pairs|]; cbn [bind]; [|reflexivity].
  destruct (spawn_all (w_resolver w) 0 0 (w_query_order w pairs)) as [set el].
  rewrite results_dev by assumption. reflexivity.
Qed.

Theorem verify_message_dev_eq : forall w headers config chunks, header_fields headers ->
  verify_message_dev E w headers config chunks = verify_message E w headers config chunks.
Proof. intros. unfold verify_message_dev, verify_message. rewrite verify_header_dev_eq by assumption. reflexivity. Qed.

End Verifying.

(** ** The formatter *)

Lemma initial_positive : forall cur n fmt, (1 <= n)%nat -> (1 <= snd (advance_i_initial cur n fmt))%nat.
Proof. intros [out i] n fmt H. unfold advance_i_initial. destruct (Nat.leb _ _); cbn [snd]; lia. Qed.

Lemma tag_dev : forall cur fmt name v, forallb is_ascii name = true ->
  format_tag_dev cur fmt name v = Val (format_tag cur fmt name v).
Proof.
  intros cur fmt name v H. unfold format_tag_dev, format_tag, debug_assert. rewrite H. cbn [bind].
  destruct (advance_i_initial _ _ _). reflexivity.
Qed.

Lemma bh_dev : forall cur fmt v, format_tag_bh_dev cur fmt v = Val (format_tag_bh cur fmt v).
Proof.
  intros. unfold format_tag_bh_dev, format_tag_bh, checked_sub.
  pose proof (initial_positive cur 4 fmt ltac:(lia)) as P. destruct (advance_i_initial cur 4 fmt) as [out i].
  cbn [snd] in P. rewrite (proj2 (Nat.leb_le _ _) P). cbn [bind].
  destruct (format_chunks_into_string _ _ _). reflexivity.
Qed.

Lemma name_b_dev : forall cur fmt n, format_tag_name_b_dev cur fmt n = Val (format_tag_name_b cur fmt n).
Proof.
  intros. unfold format_tag_name_b_dev, format_tag_name_b, checked_sub.
  pose proof (initial_positive cur 3 fmt ltac:(lia)) as P. destruct (advance_i_initial cur 3 fmt) as [out i].
  cbn [snd] in P. rewrite (proj2 (Nat.leb_le _ _) P). cbn [bind].
  destruct (Nat.leb n (f_width fmt - (i - 1))) eqn:L; cbn [bind]; [reflexivity|].
  apply Nat.leb_gt in L. rewrite (proj2 (Nat.leb_le _ _)) by lia. reflexivity.
Qed.

Lemma h_dev : forall cur fmt v, format_tag_h_dev cur fmt v = format_tag_h cur fmt v.
Proof. intros cur fmt [|n v]; reflexivity. Qed.
Lemma z_dev : forall cur fmt v, format_tag_z_dev cur fmt v = format_tag_z cur fmt v.
Proof. intros cur fmt [|n v]; reflexivity. Qed.

Lemma find_prop : forall {A} (f : A -> bool) l x, find f l = Some x -> In x l.
Proof. intros A f l x H. apply find_some in H. tauto. Qed.

Lemma one_dev : forall idna u est fmt cur ins n,
  Forall (fun t => forallb is_ascii (fst t) = true) (u_ext_tags u) ->
  format_one_dev idna u est fmt cur ins n = format_one idna u est fmt cur ins n.
Proof.
  intros idna u est fmt cur ins n H.
  unfold format_one_dev, format_one, format_tag_domain_dev, format_tag_i_dev, format_tag_c_dev, format_tag_d, format_tag_s,
    format_tag_i, format_tag_a, format_tag_c, format_tag_l, format_tag_t, format_tag_x, format_tag_v.
  rewrite bh_dev, name_b_dev, h_dev, z_dev. cbv zeta.
  repeat match goal with |- context [if leqb n ?l then _ else _] => destruct (leqb n l) end;
    repeat match goal with |- context [match ?x with _ => _ end] =>
      match x with
      | domain_form _ _ _ => destruct x; cbn [bind]
      | u_identity u => destruct x | u_body_length u => destruct x | u_timestamp u => destruct x | u_expiration u => destruct x
      | c_header _ => destruct x | c_body _ => destruct x
      end end;
    rewrite ?tag_dev by reflexivity; try reflexivity;
    try (destruct (domain_form _ _ _); cbn [bind]; rewrite ?tag_dev by reflexivity; reflexivity).
  destruct (find (fun tv => leqb (fst tv) n) (u_ext_tags u)) as [[t v]|] eqn:F; [|reflexivity].
  apply find_prop in F. rewrite Forall_forall in H. apply H in F. rewrite tag_dev by exact F. reflexivity.
Qed.

Lemma format_dev : forall idna u f est, Forall (fun t => forallb is_ascii (fst t) = true) (u_ext_tags u) ->
  format_without_signature_dev idna u f est = format_without_signature idna u f est.
Proof.
  intros idna u f est H. unfold format_without_signature_dev, format_without_signature.
  assert (forall w ind asc names cur ins, format_tags_dev idna u est w ind asc cur ins names
    = format_tags idna u est w ind asc cur ins names) as X.
  { intros w ind asc. induction names as [|n ns IH]; intros cur ins; [reflexivity|].
    cbn [format_tags_dev format_tags]. rewrite one_dev by exact H.
    destruct (format_one _ _ _ _ _ _ _) as [[c i]|]; cbn [bind]; [apply IH|reflexivity]. }
  rewrite X. reflexivity.
Qed.

(** ** The signer *)

Section Signing.
Variable E : Env.
Notation C := (env_crypto E).
Notation idna := (env_idna E).

Lemma ext_bad_dev : forall tags seen, ext_tags_bad_dev seen tags = Val (ext_tags_bad seen tags).
Proof.
  induction tags as [|[n v] tags IH]; intros seen; [reflexivity|]. cbn [ext_tags_bad_dev ext_tags_bad].
  destruct (mem_str n seen); [reflexivity|]. rewrite is_tag_name_dev_eq, is_tag_value_dev_eq. cbn [bind].
  destruct (is_tag_name n); [|reflexivity]. destruct (is_tag_value v); [|reflexivity]. cbn [negb orb].
  destruct (is_output_tag n); [reflexivity|]. apply IH.
Qed.

Theorem validate_dev : forall r, validate_request_dev E r = validate_request E r.
Proof.
  intros r. unfold validate_request_dev, validate_request. rewrite ext_bad_dev.
  repeat match goal with |- (if ?b then _ else _) = _ => destruct b; [reflexivity|] end.
  destruct (r_identity E r); [rewrite subdomain_dev|]; reflexivity.
Qed.

Theorem prepare_dev : forall order headers rs, prepare_signing_dev E order headers rs = prepare_signing E order headers rs.
Proof.
  intros order headers rs. unfold prepare_signing_dev, prepare_signing. destruct (negb _); [reflexivity|].
  assert (forall l i b, prepare_loop_dev E i b l = prepare_loop E i b l) as X.
  { induction l as [|r l IH]; intros i b; [reflexivity|]. cbn [prepare_loop_dev prepare_loop]. rewrite validate_dev.
    destruct (Nat.leb 10 i); [reflexivity|]. destruct (validate_request E r) as [[e|]|]; cbn [bind]; try reflexivity.
    destruct (bl_to_usize _ _); [apply IH|reflexivity]. }
  rewrite X. reflexivity.
Qed.

Lemma produce_dev : forall u key f headers, idna_ok idna -> sound_usig E u -> formattable idna u -> format_ok f ->
  header_fields headers ->
  produce_signature_dev E u key f headers = produce_signature E u key f headers.
Proof.
  intros u key f headers IO S Hu Hf Hh. unfold produce_signature_dev, produce_signature.
  rewrite format_dev.
  2: { destruct Hu as (_ & _ & _ & _ & _ & _ & _ & X). apply Forall_map in X. eapply Forall_impl; [|exact X].
       intros t [T _]. apply forallb_forall. rewrite Forall_forall in T. intros c Hc. specialize (T c Hc).
       unfold is_ascii. lia. }
  destruct (format_spec idna u f (estimate_b_tag_length E key) Hu Hf) as (pre & post & Hv & ->). cbn [bind].
  rewrite data_hash_dev; [|exact Hh|].
  2: { destruct (value_indented E u f (estimate_b_tag_length E key) pre post 0%nat [] IO S Hu Hf Hv) as [X _]; [constructor|].
       exact X. }
  cbn [bind]. destruct (negb _); [reflexivity|]. destruct (sign_hash E key _ _) as [sd|]; [|reflexivity].
  unfold insert_signature_data_dev, debug_assert. rewrite (proj2 (Nat.leb_le _ _)); [reflexivity|].
  unfold str_len. rewrite as_bytes_app, app_length. lia.
Qed.

(** signing, for any way of producing the signature *)
Definition perform_with (produce : USig -> SigningKey C -> OutputFormat -> list HeaderField -> outcome (result SigningOutput SigningError))
    (now : N) (request : SignRequest E) (headers : list HeaderField) (body_hash_results : BodyHashResults)
    : outcome (result SigningOutput SigningError) :=
  match bl_to_usize (env_usize_max E) (r_body_length E request) with
  | None => Panic
  | Some body_length =>
  match results_get body_hash_results (request_key E body_length request) with
  | None => Panic
  | Some (Err InputTruncated) => Panic
  | Some (Err InsufficientInput) => Val (Err InsufficientContent)
  | Some (Ok (body_hash, final_len)) =>
      match
        match r_body_length E request with
        | NoLimit => Some None
        | MessageContent | ExactLen _ => if final_len <=? u64_max then Some (Some final_len) else None
        end
      with
      | None => Val (Err SigOverflow)
      | Some body_length =>
          let signed_headers :=
            match r_header_selection E request with
            | Auto => select_signed_headers headers
            | Manual h => h
            end in
          if negb (existsb (fun n => name_eqb n (lit "From")) signed_headers) then Panic
          else if existsb (contains_char 59) signed_headers then Panic
          else
            let timestamp :=
              match r_timestamp E request with
              | TsNone => None
              | TsNow => Some now
              | TsExact t => Some t
              end in
            let expiration :=
              option_map (fun d => saturating_add (unwrap_or timestamp now) d)
                (r_valid_duration E request) in
            let copied_headers :=
              if r_copy_headers E request then prepare_copied_headers headers signed_headers else [] in
            produce
              (mkUSig (r_algorithm E request) body_hash (r_canonicalization E request)
                 (r_domain E request) signed_headers (r_identity E request) body_length
                 (r_selector E request) timestamp expiration copied_headers (r_ext_tags E request))
              (r_signing_key E request) (r_format E request) headers
      end
  end
  end.

Lemma perform_with_release : forall now r headers results,
  perform_signing E now r headers results = perform_with (produce_signature E) now r headers results.
Proof. reflexivity. Qed.
Lemma perform_with_dev : forall now r headers results,
  perform_signing_dev E now r headers results = perform_with (produce_signature_dev E) now r headers results.
Proof. reflexivity. Qed.

Lemma perform_signing_dev_eq : forall now r headers body results, idna_ok idna -> crypto_typed E -> request_typed E r -> header_fields headers ->
  (exists f, In f headers /\ same_name (fst f) (lit "From")) -> first_of (request_checks E r) None ->
  results_get results (key_of E r) = Some (expected_result (hash_fn C) false (key_of E r) body) ->
  perform_signing_dev E now r headers results = perform_signing E now r headers results.
Proof.
  intros now r headers body results IO HC T Hh HF H HR. rewrite perform_with_dev, perform_with_release.
  pose proof (accepted E r T H) as (A1 & A2 & A3 & A4 & A5 & A6 & A7 & A8 & A9 & A10).
  pose proof (accepted_format E r T H) as Hfmt.
  unfold perform_with. rewrite A10. fold (key_of E r). rewrite HR.
  set (cb := canonical_body (c_body (r_canonicalization E r)) body).
  assert (match r_body_length E r with
    | ExactLen n => N.of_nat (length cb) < n /\ expected_result (hash_fn C) false (key_of E r) body = Err InsufficientInput
    | _ => False end \/
    exists hashed len, expected_result (hash_fn C) false (key_of E r) body = Ok (hash_fn C (alg_hash (r_algorithm E r)) hashed, len)
      /\ signed_body E r body hashed (match r_body_length E r with NoLimit => None | _ => Some len end)) as X.
  { unfold expected_result, key_of, request_key, limit_of. fold cb.
    destruct (r_body_length E r) as [| |n] eqn:El.
    - right. do 2 eexists. split; [reflexivity|]. apply sb_all. exact El.
    - right. do 2 eexists. split; [reflexivity|]. apply sb_content. exact El.
    - destruct (N.of_nat (length cb) <? n) eqn:En; [left; split; [lia|reflexivity]|]. right. cbn [andb].
      do 2 eexists. split; [reflexivity|]. apply (sb_exact E r body n _ (skipn (N.to_nat n) cb)); [exact El| |].
      + rewrite firstn_length. lia.
      + fold cb. symmetry. apply firstn_skipn. }
  destruct X as [X|(hashed & len & Eh & Hb)].
  { destruct (r_body_length E r) as [| |n] eqn:El; [tauto|tauto|]. destruct X as [X ->]. reflexivity. }
  rewrite Eh.
  set (l := match r_body_length E r with NoLimit => None | _ => Some len end) in *.
  assert (match r_body_length E r with NoLimit => Some None | _ => if len <=? u64_max then Some (Some len) else None end
          = match l with Some n => if n <=? u64_max then Some l else None | None => Some l end) as ->.
  { unfold l. destruct (r_body_length E r); reflexivity. }
  destruct (match l with Some n => n <=? u64_max | None => true end) eqn:Hl.
  2: { destruct l as [n|] eqn:Ell; [|discriminate]. rewrite Hl. reflexivity. }
  assert (match l with Some n => if n <=? u64_max then Some l else None | None => Some l end = Some l) as ->.
  { destruct l; [rewrite Hl|]; reflexivity. }
  set (names := match r_header_selection E r with Auto => select_signed_headers headers | Manual h => h end).
  assert (signed_names E r headers names) as Hn.
  { unfold names. destruct (r_header_selection E r) as [|ns] eqn:Es; [|apply sn_manual; exact Es].
    unfold select_signed_headers, select_headers.
    assert (selected (fun f : HeaderField => In (lower (fst f)) signed_by_default) headers
      (filter (fun f => existsb (name_eqb (fst f)) default_signed_headers) headers)) as X.
    { apply selected_filter. intros f _.
      change signed_by_default with (map lower default_signed_headers).
      rewrite existsb_exists, in_map_iff. split; intros (n & N1 & N2); exists n.
      - rewrite name_eqb_same in N2. apply leqb_eq in N2. auto.
      - split; [exact N2|]. rewrite name_eqb_same. apply leqb_eq. auto. }
    replace (filter _ (map fst (rev headers))) with
      (rev (map fst (filter (fun f : HeaderField => existsb (name_eqb (fst f)) default_signed_headers) headers))).
    - apply sn_auto; assumption.
    - rewrite map_rev. clear. induction headers as [|f hs IH]; [reflexivity|]. cbn [map rev filter].
      rewrite filter_app, <- IH. cbn [filter]. destruct (existsb _ _); cbn [map rev]; [reflexivity|rewrite app_nil_r; reflexivity]. }
  destruct (negb _); [reflexivity|]. destruct (existsb (contains_char 59) names); [reflexivity|].
  cbv zeta.
  set (copied := if r_copy_headers E r then prepare_copied_headers headers names else []).
  assert (copied_headers E r headers names copied) as Hc.
  { unfold copied_headers, copied. destruct (r_copy_headers E r); [|reflexivity]. unfold prepare_copied_headers.
    apply selected_filter. intros f _. rewrite existsb_exists. split; intros (n & N1 & N2); exists n; split; auto.
    - rewrite name_eqb_same in N2. apply leqb_eq in N2. exact N2.
    - rewrite name_eqb_same. apply leqb_eq. exact N2. }
  match goal with |- context [produce_signature E ?x] => set (u := x) end.
  assert (to_sign E now r headers body u) as Hu.
  { exists hashed, l, names, copied. split; [exact Hb|]. split; [exact Hn|]. split; [exact Hc|].
    unfold u. unfold saturating_add, time_of. destruct (r_valid_duration E r), (r_timestamp E r); reflexivity. }
  apply produce_dev; [exact IO| | |exact Hfmt|exact Hh].
  - exact (to_sign_sound E now r headers body u HC T Hh HF H Hu).
  - exact (to_sign_formattable E now r headers body u HC T Hh HF H Hu).
Qed.

Theorem sign_message_dev_eq : forall order headers rs chunks clock, idna_ok idna -> crypto_typed E ->
  Forall (request_typed E) rs -> header_fields headers -> (forall l, Permutation (order l) l) ->
  sign_message_dev E order headers rs chunks clock = sign_message E order headers rs chunks clock.
Proof.
  intros order headers rs chunks clock IO HC T Hh Ho. unfold sign_message_dev, sign_message. rewrite prepare_dev.
  destruct (prepare_spec E order headers rs T) as (e & H & Ep). rewrite Ep.
  destruct e as [e|]; cbn [bind]; [reflexivity|]. cbv zeta.
  set (b := fold_left bhb_register (map (key_of E) rs) (bhb_new false)).
  destruct (hash_body_results (hash_fn C) b (order (bhb_registrations b)) chunks) as (sts & bh & H1 & _ & H2).
  rewrite (signer_chunks_hash E _ _ _ _ _ _ H1). cbn [bind].
  apply checks_none in H as (HF & _ & Hr).
  unfold sign_dev, sign. cbn [sg_body_hasher sg_headers sg_tasks]. rewrite H2. cbn [bind].
  match goal with |- context [sign_tasks E clock 0 headers ?x rs] => set (results := x) end.
  assert (Forall (fun r => request_typed E r /\ first_of (request_checks E r) None
    /\ results_get results (key_of E r) = Some (expected_result (hash_fn C) false (key_of E r) (concat chunks))) rs) as X.
  { apply Forall_forall. intros r Hi. split; [rewrite Forall_forall in T; auto|].
    split; [rewrite Forall_forall in Hr; auto|]. unfold results. rewrite results_get_map.
    unfold b at 2. rewrite register_all_fot.
    assert (existsb (key_eqb (key_of E r)) (order (bhb_registrations b)) = true) as ->; [|reflexivity].
    apply existsb_key_In. rewrite (Permutation_in' eq_refl (Ho _)). unfold b. rewrite register_all_in. left.
    apply in_map. exact Hi. }
  clearbody results.
  assert (forall i, sign_tasks_dev E clock i headers results rs = sign_tasks E clock i headers results rs) as ->; [|reflexivity].
  clear H1 H2 Ep T Hr b bh sts. induction X as [|r rs (X1 & X2 & X3) _ IH]; intros i; [reflexivity|]. cbn [sign_tasks_dev sign_tasks].
  rewrite (perform_signing_dev_eq (clock i) r headers (concat chunks) results) by assumption. rewrite IH. reflexivity.
Qed.

End Signing.
