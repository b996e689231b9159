(** Proofs about header canonicalization and selection. *)

From Verif Require Import Lib Utf8 Canon SpecCanon.

Lemma as_bytes_app : forall a b, as_bytes (a ++ b) = as_bytes a ++ as_bytes b.
Proof. intros. unfold as_bytes. apply flat_map_app. Qed.

Lemma as_bytes_ascii : forall s, Forall (fun c => c < 128) s -> as_bytes s = s.
Proof.
  induction s as [|c s IH]; intros H; auto. inv H. unfold as_bytes in *. simpl. rewrite IH by auto.
  unfold utf8_char. replace (c <? 0x80) with true by lia. auto.
Qed.

Lemma lower_eq : forall s, to_ascii_lowercase s = lower s.
Proof. reflexivity. Qed.

Lemma name_eqb_same : forall a b, name_eqb a b = same_nameb a b.
Proof. reflexivity. Qed.

Lemma same_nameb_iff : forall a b, same_nameb a b = true <-> same_name a b.
Proof. intros. apply leqb_eq. Qed.

Lemma lower_ascii : forall s, Forall (fun c => c < 128) s -> Forall (fun c => c < 128) (lower s).
Proof.
  intros s H. unfold lower. apply Forall_forall. intros x Hx. apply in_map_iff in Hx.
  destruct Hx as (c & <- & Hc). rewrite Forall_forall in H. specialize (H c Hc).
  destruct ((65 <=? c) && (c <=? 90)) eqn:E; lia.
Qed.

Lemma valid_name_ascii : forall n, valid_name n -> Forall (fun c => c < 128) n.
Proof.
  intros n [_ H]. eapply Forall_impl; [|exact H]. simpl. intros. lia.
Qed.

Lemma valid_name_lower : forall n, valid_name n -> valid_name (lower n).
Proof.
  intros n [H1 H2]. split; [destruct n; easy|]. apply Forall_forall. intros x Hx.
  apply in_map_iff in Hx. destruct Hx as (c & <- & Hc). rewrite Forall_forall in H2.
  specialize (H2 c Hc). destruct ((65 <=? c) && (c <=? 90)) eqn:E; lia.
Qed.

Lemma valid_name_no_colon : forall n, valid_name n -> ~ In 58 n.
Proof. intros n [_ H] Hi. rewrite Forall_forall in H. specialize (H 58 Hi). tauto. Qed.

(** ** Words *)

Definition ends_black (s : list N) : Prop := s = [] \/ exists a c, s = a ++ [c] /\ white c = false.

Lemma ends_black_tail : forall c s, ends_black (c :: s) -> ends_black s.
Proof.
  intros c s [H|(a & x & H & Hx)]; [discriminate|].
  destruct a as [|y a]; inv H; [left; auto|right; eauto].
Qed.

Lemma words_from_cur : forall s cur, cur <> [] -> words_from cur s <> [].
Proof.
  induction s as [|c s IH]; intros cur H; simpl.
  - destruct cur; easy.
  - destruct (white c); [destruct cur; easy|]. apply IH. destruct cur; easy.
Qed.

Lemma words_from_black : forall a c cur, white c = false -> words_from cur (a ++ [c]) <> [].
Proof.
  induction a as [|x a IH]; intros c cur Hc; simpl.
  - rewrite Hc. destruct cur; easy.
  - destruct (white x); [destruct cur; [apply IH; auto|easy]|]. apply IH. auto.
Qed.

Lemma words_black : forall s, ends_black s -> s <> [] -> words s <> [].
Proof.
  intros s [H|(a & c & -> & Hc)] Hn; [congruence|]. apply words_from_black. auto.
Qed.

Lemma unwords_cons : forall w ws, ws <> [] -> unwords (w :: ws) = w ++ [32] ++ unwords ws.
Proof. intros. destruct ws; [congruence|auto]. Qed.

Lemma compress_unwords : forall s, ends_black s ->
  compress_space true s = unwords (words s)
  /\ forall cur, cur <> [] -> unwords (words_from cur s) = cur ++ compress_space false s.
Proof.
  induction s as [|c s IH]; intros H.
  - split; auto. intros cur Hc. destruct cur; [congruence|]. simpl. rewrite app_nil_r. auto.
  - pose proof (ends_black_tail _ _ H) as Hs. specialize (IH Hs). destruct IH as [IH1 IH2].
    simpl. change (is_space c) with (white c). split.
    + unfold words. simpl. destruct (white c) eqn:E; auto.
      rewrite IH2 by easy. auto.
    + intros cur Hc. destruct (white c) eqn:E.
      * destruct cur as [|x cur]; [congruence|]. rewrite unwords_cons.
        2:{ apply words_black; auto. destruct H as [H|(a & y & H & Hy)]; [discriminate|].
            intros ->. destruct a as [|z a]; inv H; [congruence|destruct a; discriminate]. }
        rewrite IH1. auto.
      * rewrite IH2 by (destruct cur; easy). rewrite <- app_assoc. auto.
Qed.

Lemma words_from_white_end : forall a s cur, forallb white a = true ->
  words_from cur (s ++ a) = words_from cur s.
Proof.
  intros a s cur Ha. revert cur. induction s as [|c s IH]; intros cur; simpl.
  - assert (forall a cur, forallb white a = true -> words_from cur a = words_from cur []) as X.
    { clear. induction a as [|x a IH]; intros cur H; auto. simpl in H. apply andb_true_iff in H.
      destruct H as [H1 H2]. simpl. rewrite H1. destruct cur; rewrite IH; auto. }
    apply X. auto.
  - destruct (white c); auto. destruct cur; auto. rewrite IH. auto.
Qed.

Lemma words_white_start : forall a s, forallb white a = true -> words (a ++ s) = words s.
Proof.
  unfold words. induction a as [|x a IH]; intros s H; auto. simpl in H. apply andb_true_iff in H.
  destruct H as [H1 H2]. simpl. rewrite H1. auto.
Qed.

Lemma relaxed_value_words : forall v, canonicalize_header_relaxed v = unwords (words v).
Proof.
  intros v. unfold canonicalize_header_relaxed, trim_space.
  destruct (trim_start_spec is_space v) as (a & H1 & H2 & H3).
  set (v1 := trim_start is_space v) in *.
  destruct (trim_end_spec is_space v1) as (b & H4 & H5 & H6).
  set (v2 := trim_end is_space v1) in *.
  assert (words v = words v2) as ->.
  { rewrite H1. rewrite words_white_start by auto. rewrite H4. unfold words.
    apply words_from_white_end. auto. }
  assert (ends_black v2) as Hb.
  { destruct H6 as [H6|(c & r & H6 & H7)]; [left; auto|right; eauto]. }
  clearbody v2. destruct v2 as [|c v3] eqn:E; auto.
  assert (white c = false) as Hc.
  { destruct H3 as [H3|(x & r & H3 & Hx)].
    - rewrite H3 in H4. discriminate.
    - rewrite H3 in H4. simpl in H4. injection H4 as -> _. auto. }
  destruct (compress_unwords _ Hb) as [X _]. rewrite <- X. simpl.
  change (is_space c) with (white c). rewrite Hc. auto.
Qed.

(** ** One field *)

Lemma as_bytes_lower : forall n, valid_name n -> as_bytes (to_ascii_lowercase n) = lower n.
Proof.
  intros. rewrite lower_eq. apply as_bytes_ascii. apply lower_ascii. apply valid_name_ascii. auto.
Qed.

Theorem canonicalize_header_spec : forall alg name value, valid_name name ->
  canonicalize_header alg name value = canonical_field alg (name, value).
Proof.
  intros. destruct alg; unfold canonicalize_header, canonical_field, rfc_relaxed_header; simpl fst; simpl snd.
  - rewrite as_bytes_ascii; auto. apply valid_name_ascii. auto.
  - rewrite as_bytes_lower, relaxed_value_words by auto. auto.
Qed.

(** Words are nonempty and contain no white space. *)
Lemma words_from_ok : forall s cur, forallb (fun c => negb (white c)) cur = true ->
  Forall (fun w => w <> [] /\ forallb (fun c => negb (white c)) w = true) (words_from cur s).
Proof.
  induction s as [|c s IH]; intros cur H; simpl.
  - destruct cur; constructor; auto. split; auto. easy.
  - destruct (white c) eqn:E.
    + destruct cur; auto. constructor; auto. split; auto. easy.
    + apply IH. rewrite forallb_app, H. simpl. rewrite E. auto.
Qed.

Lemma words_from_word : forall w cur s, forallb (fun c => negb (white c)) w = true ->
  words_from cur (w ++ s) = words_from (cur ++ w) s.
Proof.
  induction w as [|c w IH]; intros cur s H; simpl.
  - rewrite app_nil_r. auto.
  - simpl in H. apply andb_true_iff in H. destruct H as [H1 H2]. apply negb_true_iff in H1.
    rewrite H1. rewrite IH by auto. rewrite <- app_assoc. auto.
Qed.

Lemma words_unwords : forall ws,
  Forall (fun w => w <> [] /\ forallb (fun c => negb (white c)) w = true) ws ->
  words (unwords ws) = ws.
Proof.
  induction ws as [|w ws IH]; intros H; auto. inv H. destruct H2 as [H2 H4].
  destruct ws as [|w2 ws].
  - simpl. unfold words. rewrite <- (app_nil_r w) at 1. rewrite words_from_word by auto. simpl.
    destruct w; easy.
  - rewrite unwords_cons by easy. unfold words in *. rewrite words_from_word by auto. simpl app at 1.
    cbn [words_from app]. change (white 32) with true. cbv iota.
    destruct w; [congruence|]. rewrite IH by auto. auto.
Qed.

Lemma words_ok : forall s,
  Forall (fun w => w <> [] /\ forallb (fun c => negb (white c)) w = true) (words s).
Proof. intros. apply words_from_ok. auto. Qed.

Lemma app_colon_inj : forall n1 n2 v1 v2 : list N, ~ In 58 n1 -> ~ In 58 n2 ->
  n1 ++ [58] ++ v1 = n2 ++ [58] ++ v2 -> n1 = n2 /\ v1 = v2.
Proof.
  induction n1 as [|x n1 IH]; intros n2 v1 v2 H1 H2 H; destruct n2 as [|y n2]; simpl in H; inv H.
  - auto.
  - exfalso. apply H2. simpl. auto.
  - exfalso. apply H1. simpl. auto.
  - destruct (IH n2 v1 v2); auto.
    + intro. apply H1. simpl. auto.
    + intro. apply H2. simpl. auto.
    + subst. auto.
Qed.

(** relaxed: equal forms exactly for names equal up to case and equal words *)
Theorem relaxed_header_iff : forall n1 v1 n2 v2, valid_name n1 -> valid_name n2 ->
  (canonicalize_header Relaxed n1 v1 = canonicalize_header Relaxed n2 v2
   <-> lower n1 = lower n2 /\ words v1 = words v2).
Proof.
  intros n1 v1 n2 v2 H1 H2. rewrite !canonicalize_header_spec by auto.
  unfold canonical_field, rfc_relaxed_header. simpl. split.
  - intros H. apply app_colon_inj in H; try (apply valid_name_no_colon, valid_name_lower; auto).
    destruct H as [H3 H4]. split; auto.
    rewrite <- (words_unwords (words v1)), <- (words_unwords (words v2)) by apply words_ok.
    congruence.
  - intros [-> ->]. auto.
Qed.

(** simple: injective *)
Theorem simple_header_iff : forall n1 v1 n2 v2, valid_name n1 -> valid_name n2 ->
  (canonicalize_header Simple n1 v1 = canonicalize_header Simple n2 v2
   <-> n1 = n2 /\ v1 = v2).
Proof.
  intros n1 v1 n2 v2 H1 H2. rewrite !canonicalize_header_spec by auto.
  unfold canonical_field. simpl. split.
  - apply app_colon_inj; apply valid_name_no_colon; auto.
  - intros [-> ->]. auto.
Qed.

Lemma lower_idem : forall s, lower (lower s) = lower s.
Proof. intros. rewrite <- !lower_eq. apply to_ascii_lowercase_idem. Qed.

Theorem relaxed_header_idempotent : forall name value,
  canonicalize_header_relaxed (canonicalize_header_relaxed value) = canonicalize_header_relaxed value
  /\ forall out v', valid_name name -> canonicalize_header Relaxed name value = out ->
     out = lower name ++ [58] ++ v' -> canonicalize_header Relaxed (lower name) v' = out.
Proof.
  intros. split.
  - rewrite !relaxed_value_words, words_unwords by apply words_ok. auto.
  - intros out v' Hn E H. rewrite canonicalize_header_spec in E; auto.
    rewrite canonicalize_header_spec by (auto using valid_name_lower). subst out.
    unfold canonical_field, rfc_relaxed_header in *. simpl in *.
    apply app_inv_head in H. inv H. rewrite lower_idem.
    rewrite words_unwords by apply words_ok. auto.
Qed.

(** folding: any nonempty white space for any other, inside; any at the ends *)
Theorem words_refold : forall a b ws1 ws2,
  ws1 <> [] -> ws2 <> [] -> forallb white ws1 = true -> forallb white ws2 = true ->
  words (a ++ ws1 ++ b) = words (a ++ ws2 ++ b).
Proof.
  intros a b ws1 ws2 N1 N2 W1 W2.
  assert (forall ws cur, ws <> [] -> forallb white ws = true ->
    words_from cur (ws ++ b) = match cur with [] => words b | _ => cur :: words b end) as X.
  { clear. intros ws cur N W. destruct ws as [|c ws]; [congruence|]. simpl in W.
    apply andb_true_iff in W. destruct W as [W1 W2]. simpl. rewrite W1.
    fold (words (ws ++ b)). rewrite words_white_start by auto. auto. }
  assert (forall a cur, words_from cur (a ++ ws1 ++ b) = words_from cur (a ++ ws2 ++ b)) as Y;
    [|apply Y].
  clear a. induction a as [|c a IH]; intros cur; simpl.
  - rewrite !X by auto. auto.
  - rewrite !IH. auto.
Qed.

(** ** Selection *)

Definition matches (n : list N) (f : HeaderField) : bool := same_nameb (fst f) n.

Lemma same_name_trans_b : forall a b c, same_nameb a b = true -> same_nameb b c = same_nameb a c.
Proof.
  intros a b c H. apply leqb_eq in H. unfold same_nameb. rewrite H. auto.
Qed.

Lemma same_nameb_sym : forall a b, same_nameb a b = same_nameb b a.
Proof. intros. apply leqb_sym. Qed.

Lemma same_nameb_refl : forall a, same_nameb a a = true.
Proof. intros. apply leqb_refl. Qed.

(** number of fields before index [i] with name [n] *)
Definition rank (rh : list HeaderField) (i : nat) (n : list N) : nat :=
  length (filter (matches n) (firstn i rh)).

Lemma nth_error_filter : forall (p : HeaderField -> bool) l k f,
  nth_error (filter p l) k = Some f <->
  exists i, nth_error l i = Some f /\ p f = true /\ length (filter p (firstn i l)) = k.
Proof.
  induction l as [|x l IH]; intros k f; simpl.
  - split; [destruct k; discriminate|]. intros (i & H & _). destruct i; discriminate.
  - destruct (p x) eqn:E.
    + destruct k as [|k]; simpl.
      * split.
        -- intros H. inv H. exists O. auto.
        -- intros (i & H1 & H2 & H3). destruct i; simpl in *; auto.
           rewrite E in H3. discriminate.
      * rewrite IH. split.
        -- intros (i & H1 & H2 & H3). exists (S i). simpl. rewrite E. simpl. auto.
        -- intros (i & H1 & H2 & H3). destruct i; simpl in *; [discriminate|].
           rewrite E in H3. simpl in H3. exists i. auto.
    + rewrite IH. split.
      * intros (i & H1 & H2 & H3). exists (S i). simpl. rewrite E. auto.
      * intros (i & H1 & H2 & H3). destruct i; simpl in *.
        -- inv H1. congruence.
        -- rewrite E in H3. exists i. auto.
Qed.

Lemma find_unprocessed_spec : forall rh i0 p sel,
  match find_unprocessed i0 rh p sel with
  | Some (i, f) => exists k, i = (i0 + k)%nat /\ nth_error rh k = Some f
      /\ mem_nat i p = false /\ matches sel f = true
      /\ (forall j g, (j < k)%nat -> nth_error rh j = Some g -> matches sel g = true ->
            mem_nat (i0 + j) p = true)
  | None => forall j g, nth_error rh j = Some g -> matches sel g = true -> mem_nat (i0 + j) p = true
  end.
Proof.
  induction rh as [|f rh IH]; intros i0 p sel; simpl.
  - intros [|j]; discriminate.
  - change (name_eqb (fst f) sel) with (matches sel f).
    destruct (negb (mem_nat i0 p) && matches sel f) eqn:E.
    + apply andb_true_iff in E. destruct E as [E1 E2]. apply negb_true_iff in E1.
      exists O. rewrite Nat.add_0_r. split; auto. split; auto. split; auto. split; auto.
      intros. lia.
    + assert (matches sel f = true -> mem_nat i0 p = true) as E2.
      { intros H. rewrite H, andb_true_r in E. apply negb_false_iff in E. auto. }
      specialize (IH (S i0) p sel). destruct (find_unprocessed (S i0) rh p sel) as [[i g]|].
      * destruct IH as (k & H1 & H2 & H3 & H4 & H5). exists (S k). split; [lia|]. split; auto.
        split; auto. split; auto. intros j g' Hj Hg Hm. destruct j as [|j]; simpl in Hg.
        -- inv Hg. rewrite Nat.add_0_r. auto.
        -- replace (i0 + S j)%nat with (S i0 + j)%nat by lia. eapply H5; eauto. lia.
      * intros j g Hg Hm. destruct j as [|j]; simpl in Hg.
        -- inv Hg. rewrite Nat.add_0_r. auto.
        -- replace (i0 + S j)%nat with (S i0 + j)%nat by lia. eapply IH; eauto.
Qed.

Lemma rank_same : forall rh i a b, same_nameb a b = true -> rank rh i a = rank rh i b.
Proof.
  intros. unfold rank. f_equal. apply filter_ext. intros f. unfold matches.
  rewrite (same_nameb_sym (fst f) a), (same_nameb_sym (fst f) b).
  symmetry. apply same_name_trans_b. auto.
Qed.

Lemma occ_same : forall l a b, same_nameb a b = true -> occurrences a l = occurrences b l.
Proof.
  intros. unfold occurrences. f_equal. apply filter_ext. intros f.
  rewrite (same_nameb_sym f a), (same_nameb_sym f b). symmetry. apply same_name_trans_b. auto.
Qed.

Lemma rank_lt : forall rh i j f, nth_error rh i = Some f -> (i < j)%nat ->
  forall n, matches n f = true -> (rank rh i n < rank rh j n)%nat.
Proof.
  induction rh as [|x rh IH]; intros i j f H1 H2 n H3; [destruct i; discriminate|].
  destruct j as [|j]; [lia|]. destruct i as [|i]; simpl in H1.
  - inv H1. unfold rank. simpl. rewrite H3. simpl. lia.
  - specialize (IH i j f H1 ltac:(lia) n H3). unfold rank in *. simpl.
    destruct (matches n x); simpl; lia.
Qed.

(** which indexes have been processed *)
Definition processed_ok (rh : list HeaderField) (processed : list nat) (before : list FieldName) : Prop :=
  forall i f, nth_error rh i = Some f ->
    (mem_nat i processed = true <-> (rank rh i (fst f) < occurrences (fst f) before)%nat).

Lemma matches_rank : forall rh i n f, matches n f = true -> rank rh i (fst f) = rank rh i n.
Proof. intros. apply rank_same. exact H. Qed.

Lemma occ_snoc : forall n before sel,
  occurrences n (before ++ [sel]) = (occurrences n before + if same_nameb sel n then 1 else 0)%nat.
Proof.
  intros. unfold occurrences. rewrite filter_app, app_length. simpl.
  destruct (same_nameb sel n); auto.
Qed.

Lemma step_selected : forall headers processed before sel,
  processed_ok (rev headers) processed before ->
  match find_unprocessed 0 (rev headers) processed sel with
  | Some (i, f) =>
      kth_from_bottom headers sel (S (occurrences sel before)) = Some f
      /\ processed_ok (rev headers) (i :: processed) (before ++ [sel])
  | None =>
      kth_from_bottom headers sel (S (occurrences sel before)) = None
      /\ processed_ok (rev headers) processed (before ++ [sel])
  end.
Proof.
  intros headers processed before sel Inv. set (rh := rev headers) in *.
  pose proof (find_unprocessed_spec rh 0 processed sel) as S.
  unfold kth_from_bottom. fold rh. replace (Datatypes.S (occurrences sel before) - 1)%nat with (occurrences sel before) by lia.
  fold (matches sel). destruct (find_unprocessed 0 rh processed sel) as [[i f]|].
  - destruct S as (k & Hi & H1 & H2 & H3 & H4). simpl in Hi. subst i.
    assert (occurrences (fst f) before = occurrences sel before) as Ho by (apply occ_same; exact H3).
    assert (rank rh k sel = occurrences sel before) as Hr.
    { assert (~ (rank rh k sel < occurrences sel before)%nat) as G.
      { rewrite <- Ho, <- (matches_rank rh k sel f) by auto. rewrite <- (Inv k f H1). congruence. }
      assert (~ (rank rh k sel > occurrences sel before)%nat) as G2.
      { intros G2.
        destruct (nth_error (filter (matches sel) rh) (occurrences sel before)) as [g|] eqn:Eg.
        - apply nth_error_filter in Eg. destruct Eg as (j & J1 & J2 & J3).
          assert (j < k)%nat as Jk.
          { destruct (Nat.lt_trichotomy j k) as [L|[L|L]]; auto.
            - subst. unfold rank in G2. fold (matches sel) in J3. lia.
            - pose proof (rank_lt rh k j f H1 L sel H3). unfold rank in *. lia. }
          specialize (H4 j g Jk J1 J2). simpl in H4. apply (Inv j g J1) in H4.
          rewrite (matches_rank rh j sel g) in H4 by auto.
          rewrite (occ_same before (fst g) sel) in H4 by exact J2. unfold rank in H4. lia.
        - apply nth_error_None in Eg.
          assert (rank rh k sel <= length (filter (matches sel) rh))%nat.
          { unfold rank. rewrite <- (firstn_skipn k rh) at 2. rewrite filter_app, app_length. lia. }
          lia. }
      lia. }
    split.
    + apply nth_error_filter. exists k. auto.
    + intros j g Hg. simpl. rewrite orb_true_iff, Nat.eqb_eq, (Inv j g Hg), occ_snoc.
      destruct (same_nameb sel (fst g)) eqn:Es.
      * rewrite (occ_same before (fst g) sel) by (rewrite same_nameb_sym; auto).
        rewrite (rank_same rh j (fst g) sel) by (rewrite same_nameb_sym; auto).
        assert (matches sel g = true) as Hm by (unfold matches; rewrite same_nameb_sym; auto).
        split.
        -- intros [->|H]; lia.
        -- intros H. destruct (Nat.lt_trichotomy j k) as [L|[L|L]]; auto.
           ++ pose proof (rank_lt rh j k g Hg L sel Hm). right. lia.
           ++ pose proof (rank_lt rh k j f H1 L sel H3). lia.
      * split.
        -- intros [->|H]; [|lia]. rewrite H1 in Hg. inv Hg.
           unfold matches in H3. rewrite same_nameb_sym in H3. congruence.
        -- intros H. right. lia.
  - split.
    + destruct (nth_error (filter (matches sel) rh) (occurrences sel before)) as [g|] eqn:Eg; auto.
      apply nth_error_filter in Eg. destruct Eg as (j & J1 & J2 & J3).
      specialize (S j g J1 J2). simpl in S. apply (Inv j g J1) in S.
      rewrite (matches_rank rh j sel g) in S by auto.
      rewrite (occ_same before (fst g) sel) in S by exact J2. unfold rank in S. lia.
    + intros j g Hg. rewrite (Inv j g Hg), occ_snoc.
      destruct (same_nameb sel (fst g)) eqn:Es; [|lia].
      assert (matches sel g = true) as Hm by (unfold matches; rewrite same_nameb_sym; auto).
      specialize (S j g Hg Hm). simpl in S. apply (Inv j g Hg) in S. lia.
Qed.

Lemma contributed_valid : forall headers names before,
  Forall (fun f => valid_name (fst f)) headers ->
  Forall (fun f => valid_name (fst f)) (contributed headers before names).
Proof.
  intros headers names. induction names as [|n names IH]; intros before H; simpl; [constructor|].
  apply Forall_app. split; auto.
  destruct (kth_from_bottom headers n _) eqn:E; constructor; auto.
  unfold kth_from_bottom in E. apply nth_error_In in E. apply filter_In in E. destruct E as [E _].
  apply in_rev in E. rewrite Forall_forall in H. auto.
Qed.

Lemma canon_headers_loop_spec : forall alg headers names before processed,
  Forall (fun f => valid_name (fst f)) headers ->
  processed_ok (rev headers) processed before ->
  canon_headers_loop alg (rev headers) processed names
  = concat (map (fun f => canonical_field alg f ++ [13; 10]) (contributed headers before names)).
Proof.
  intros alg headers names. induction names as [|n names IH]; intros before processed Hv Hp; auto.
  cbn [canon_headers_loop contributed].
  pose proof (step_selected headers processed before n Hp) as S.
  destruct (find_unprocessed 0 (rev headers) processed n) as [[i [nm v]]|]; destruct S as [S1 S2];
    rewrite S1; simpl.
  - rewrite (IH (before ++ [n])) by auto. rewrite canonicalize_header_spec.
    + rewrite <- app_assoc. auto.
    + unfold kth_from_bottom in S1. apply nth_error_In in S1. apply filter_In in S1.
      destruct S1 as [S1 _]. apply in_rev in S1. rewrite Forall_forall in Hv. apply (Hv _ S1).
  - apply IH; auto.
Qed.

Theorem canonicalize_headers_spec : forall alg headers names,
  Forall (fun f => valid_name (fst f)) headers ->
  canonicalize_headers alg headers names = header_hash_input alg headers names.
Proof.
  intros. unfold canonicalize_headers, header_hash_input.
  apply canon_headers_loop_spec; auto.
  intros i f Hf. simpl. split; [discriminate|]. unfold occurrences. simpl. lia.
Qed.

(** ** What matters of a header *)

Lemma nth_error_firstn : forall A (l : list A) n k, (k < n)%nat -> nth_error (firstn n l) k = nth_error l k.
Proof.
  induction l as [|x l IH]; intros n k H; destruct n; try lia; simpl.
  - auto.
  - destruct k; auto. simpl. apply IH. lia.
Qed.

Lemma occ_app : forall n a b, occurrences n (a ++ b) = (occurrences n a + occurrences n b)%nat.
Proof. intros. unfold occurrences. rewrite filter_app, app_length. auto. Qed.

Lemma contributed_agree : forall h1 h2 names before all,
  all = before ++ names -> agree_on all h1 h2 ->
  contributed h1 before names = contributed h2 before names.
Proof.
  intros h1 h2. induction names as [|n names IH]; intros before all E A; auto.
  cbn [contributed]. rewrite (IH (before ++ [n]) all); auto.
  2:{ rewrite <- app_assoc. auto. }
  replace (kth_from_bottom h1 n (S (occurrences n before)))
    with (kth_from_bottom h2 n (S (occurrences n before))); auto.
  unfold kth_from_bottom. specialize (A n). rewrite E in A.
  assert (occurrences n before < occurrences n (before ++ n :: names))%nat as L.
  { rewrite occ_app. unfold occurrences at 3. simpl. rewrite same_nameb_refl. simpl. lia. }
  rewrite <- (nth_error_firstn _ (filter _ (rev h1)) (occurrences n (before ++ n :: names))) by lia.
  rewrite <- (nth_error_firstn _ (filter _ (rev h2)) (occurrences n (before ++ n :: names))) by lia.
  rewrite A; auto. apply in_app_iff. simpl. auto.
Qed.

Theorem headers_agree : forall alg h1 h2 names,
  Forall (fun f => valid_name (fst f)) h1 -> Forall (fun f => valid_name (fst f)) h2 ->
  agree_on names h1 h2 ->
  canonicalize_headers alg h1 names = canonicalize_headers alg h2 names.
Proof.
  intros. rewrite !canonicalize_headers_spec by auto. unfold header_hash_input.
  rewrite (contributed_agree h1 h2 names [] names) by auto. auto.
Qed.

(** adding or removing unrelated fields *)
Theorem agree_unrelated : forall names a f b,
  (forall n, In n names -> same_nameb (fst f) n = false) ->
  agree_on names (a ++ b) (a ++ f :: b).
Proof.
  intros names a f b H n Hn. rewrite !rev_app_distr. simpl. rewrite !filter_app. simpl.
  rewrite (H n Hn). rewrite app_nil_r. auto.
Qed.

(** adding further instances above *)
Theorem agree_above : forall names extra headers,
  (forall n, In n names -> (exists f, In f extra /\ same_nameb (fst f) n = true) ->
     (occurrences n names <= length (filter (fun f => same_nameb (fst f) n) headers))%nat) ->
  agree_on names headers (extra ++ headers).
Proof.
  intros names extra headers H n Hn. rewrite rev_app_distr, filter_app.
  rewrite firstn_app.
  destruct (filter (fun f => same_nameb (fst f) n) (rev extra)) as [|f l] eqn:E.
  - rewrite firstn_nil, app_nil_r. auto.
  - assert (occurrences n names <= length (filter (fun f => same_nameb (fst f) n) headers))%nat as L.
    { apply H; auto. exists f. assert (In f (f :: l)) as F by (simpl; auto). rewrite <- E in F.
      apply filter_In in F. destruct F as [F1 F2]. apply in_rev in F1. auto. }
    assert (length (filter (fun f0 => same_nameb (fst f0) n) (rev headers))
            = length (filter (fun f0 => same_nameb (fst f0) n) headers)) as LL.
    { clear. induction headers as [|x l IH]; auto. simpl. rewrite filter_app, app_length. simpl.
      destruct (same_nameb (fst x) n); simpl; lia. }
    rewrite LL. replace (occurrences n names - _)%nat with O by lia. simpl.
    rewrite app_nil_r. auto.
Qed.
