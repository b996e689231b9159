(** Proofs about UTF-8. *)

From Verif Require Import Lib Utf8 SpecText.

Lemma utf8_char_nonempty : forall c, utf8_char c <> [].
Proof. intros c. unfold utf8_char. repeat dmatch; discriminate. Qed.

Lemma utf8_char_ascii : forall c, c < 128 -> utf8_char c = [c].
Proof. intros. unfold utf8_char. replace (c <? 128) with true by lia. auto. Qed.

Lemma utf8_char_bytes : forall c, is_scalar c -> Forall is_byte (utf8_char c).
Proof.
  unfold is_scalar, is_byte, utf8_char. intros c H.
  repeat dmatch; repeat constructor; lia.
Qed.

Lemma as_bytes_bytes : forall s, Forall is_scalar s -> Forall is_byte (as_bytes s).
Proof.
  induction 1; simpl; auto. apply Forall_app. split; auto. apply utf8_char_bytes; auto.
Qed.

Lemma as_bytes_cons : forall c s, as_bytes (c :: s) = utf8_char c ++ as_bytes s.
Proof. reflexivity. Qed.

Ltac falsify e := replace e with false by (unfold ok2, ok3, ok4, is_cont, in_range; lia).
Ltac verify e := replace e with true by (unfold ok2, ok3, ok4, is_cont, in_range; lia).

Lemma utf8_prefix_char : forall c r, is_scalar c ->
  utf8_prefix (utf8_char c ++ r) = let '(s, r') := utf8_prefix r in (c :: s, r').
Proof.
  unfold is_scalar. intros c r H. unfold utf8_char.
  destruct (c <? 128) eqn:E1.
  { simpl. rewrite E1. auto. }
  destruct (c <? 2048) eqn:E2.
  { simpl app. cbn [utf8_prefix]. falsify (192 + c / 64 <? 128).
    verify (ok2 (192 + c / 64) (128 + c mod 64)).
    destruct (utf8_prefix r). f_equal. f_equal. lia. }
  destruct (c <? 65536) eqn:E3.
  { simpl app. cbn [utf8_prefix]. falsify (224 + c / 4096 <? 128).
    set (b1 := 224 + c / 4096). set (b2 := 128 + (c / 64) mod 64). set (b3 := 128 + c mod 64).
    assert (ok2 b1 b2 = false) as ->. { unfold ok2, in_range, b1. lia. }
    assert (ok3 b1 b2 b3 = true) as ->.
    { unfold ok3, is_cont, in_range. subst b1 b2 b3. lia. }
    destruct (utf8_prefix r). f_equal. f_equal. subst b1 b2 b3. lia. }
  { simpl app. cbn [utf8_prefix]. falsify (240 + c / 262144 <? 128).
    set (b1 := 240 + c / 262144). set (b2 := 128 + (c / 4096) mod 64).
    set (b3 := 128 + (c / 64) mod 64). set (b4 := 128 + c mod 64).
    assert (ok2 b1 b2 = false) as ->. { unfold ok2, in_range, b1. lia. }
    assert (ok3 b1 b2 b3 = false) as ->. { unfold ok3, in_range, b1. lia. }
    assert (ok4 b1 b2 b3 b4 = true) as ->.
    { unfold ok4, is_cont, in_range. subst b1 b2 b3 b4. lia. }
    destruct (utf8_prefix r). f_equal. f_equal. subst b1 b2 b3 b4. lia. }
Qed.

Lemma utf8_prefix_app : forall s r, Forall is_scalar s ->
  utf8_prefix (as_bytes s ++ r) = let '(s', r') := utf8_prefix r in (s ++ s', r').
Proof.
  induction s as [|c s IH]; intros r H.
  - simpl. destruct (utf8_prefix r); auto.
  - apply Forall_cons_iff in H. destruct H as [H1 H2]. rewrite as_bytes_cons, <- app_assoc.
    rewrite utf8_prefix_char by auto. rewrite IH by auto. destruct (utf8_prefix r); auto.
Qed.

Lemma utf8_char_2 : forall b1 b2, ok2 b1 b2 = true ->
  let c := (b1 - 192) * 64 + (b2 - 128) in utf8_char c = [b1; b2] /\ is_scalar c.
Proof.
  intros b1 b2 H c. unfold ok2, is_cont, in_range in H. unfold utf8_char, is_scalar.
  assert (128 <= c < 2048) by lia.
  replace (c <? 128) with false by lia. replace (c <? 2048) with true by lia.
  split; [|lia]. unfold c. repeat f_equal; lia.
Qed.

Lemma utf8_char_3 : forall b1 b2 b3, ok3 b1 b2 b3 = true ->
  let c := (b1 - 224) * 4096 + (b2 - 128) * 64 + (b3 - 128) in utf8_char c = [b1; b2; b3] /\ is_scalar c.
Proof.
  intros b1 b2 b3 H c. unfold ok3, is_cont, in_range in H. unfold utf8_char, is_scalar.
  assert (2048 <= c < 55296 \/ 57344 <= c < 65536) by lia.
  replace (c <? 128) with false by lia. replace (c <? 2048) with false by lia.
  replace (c <? 65536) with true by lia.
  split; [|lia]. unfold c. clear - H. repeat f_equal; lia.
Qed.

Lemma utf8_char_4 : forall b1 b2 b3 b4, ok4 b1 b2 b3 b4 = true ->
  let c := (b1 - 240) * 262144 + (b2 - 128) * 4096 + (b3 - 128) * 64 + (b4 - 128) in
  utf8_char c = [b1; b2; b3; b4] /\ is_scalar c.
Proof.
  intros b1 b2 b3 b4 H c. unfold ok4, is_cont, in_range in H. unfold utf8_char, is_scalar.
  assert (65536 <= c < 1114112) by lia.
  replace (c <? 128) with false by lia. replace (c <? 2048) with false by lia.
  replace (c <? 65536) with false by lia.
  split; [|lia]. unfold c. clear - H. repeat f_equal; lia.
Qed.

Lemma no_char_nil : no_char_at [].
Proof.
  intros c rest _ H. apply (utf8_char_nonempty c). destruct (utf8_char c); auto; discriminate.
Qed.

Lemma prefix_nil_no_char : forall bs r, utf8_prefix bs = ([], r) -> no_char_at bs.
Proof.
  intros bs r H c rest Hs ->. rewrite utf8_prefix_char in H by auto.
  destruct (utf8_prefix rest). discriminate.
Qed.

Lemma utf8_prefix_split : forall n bs, (length bs <= n)%nat ->
  utf8_split bs (fst (utf8_prefix bs)) (snd (utf8_prefix bs)).
Proof.
  unfold utf8_split. induction n as [|n IH]; intros bs L.
  { destruct bs; [|simpl in L; lia]. simpl. split; [constructor|]. split; auto. apply no_char_nil. }
  assert (forall c r, bs = utf8_char c ++ r -> is_scalar c -> (length r <= n)%nat ->
    utf8_prefix bs = (c :: fst (utf8_prefix r), snd (utf8_prefix r)) ->
    Forall is_scalar (fst (utf8_prefix bs)) /\ bs = as_bytes (fst (utf8_prefix bs)) ++ snd (utf8_prefix bs)
    /\ no_char_at (snd (utf8_prefix bs))) as Step.
  { intros c r Hb Hc Lr Hp. rewrite Hp. destruct (IH r Lr) as (I1 & I2 & I3). cbn [fst snd].
    split; [constructor; auto|]. split; auto. rewrite as_bytes_cons, <- app_assoc, <- I2. auto. }
  assert (forall r, utf8_prefix bs = ([], r) -> r = bs ->
    Forall is_scalar (fst (utf8_prefix bs)) /\ bs = as_bytes (fst (utf8_prefix bs)) ++ snd (utf8_prefix bs)
    /\ no_char_at (snd (utf8_prefix bs))) as Stop.
  { intros r Hp ->. pose proof (prefix_nil_no_char _ _ Hp). rewrite Hp. cbn [fst snd].
    split; [constructor|]. split; auto. }
  destruct bs as [|b1 r1].
  { eapply Stop; reflexivity. }
  simpl in L.
  destruct (b1 <? 128) eqn:E1.
  { eapply (Step b1 r1); [rewrite utf8_char_ascii by lia; auto| unfold is_scalar; lia |lia|].
    cbn [utf8_prefix]. rewrite E1. destruct (utf8_prefix r1); auto. }
  destruct r1 as [|b2 r2]. { eapply Stop; cbn [utf8_prefix]; try rewrite E1; reflexivity. }
  simpl in L. destruct (ok2 b1 b2) eqn:E2.
  { destruct (utf8_char_2 _ _ E2) as [H1 H2].
    eapply (Step _ r2); [|exact H2|lia|]. { rewrite H1. auto. }
    cbn [utf8_prefix]. rewrite E1, E2. destruct (utf8_prefix r2); auto. }
  destruct r2 as [|b3 r3]. { eapply Stop; cbn [utf8_prefix]; rewrite ?E1, ?E2; reflexivity. }
  simpl in L. destruct (ok3 b1 b2 b3) eqn:E3.
  { destruct (utf8_char_3 _ _ _ E3) as [H1 H2].
    eapply (Step _ r3); [|exact H2|lia|]. { rewrite H1. auto. }
    cbn [utf8_prefix]. rewrite E1, E2, E3. destruct (utf8_prefix r3); auto. }
  destruct r3 as [|b4 r4]. { eapply Stop; cbn [utf8_prefix]; rewrite ?E1, ?E2, ?E3; reflexivity. }
  simpl in L. destruct (ok4 b1 b2 b3 b4) eqn:E4.
  { destruct (utf8_char_4 _ _ _ _ E4) as [H1 H2].
    eapply (Step _ r4); [|exact H2|lia|]. { rewrite H1. auto. }
    cbn [utf8_prefix]. rewrite E1, E2, E3, E4. destruct (utf8_prefix r4); auto. }
  eapply Stop; cbn [utf8_prefix]; rewrite ?E1, ?E2, ?E3, ?E4; reflexivity.
Qed.

Lemma utf8_prefix_spec : forall bs s r, utf8_prefix bs = (s, r) <-> utf8_split bs s r.
Proof.
  intros bs s r. split.
  - intros H. pose proof (utf8_prefix_split (length bs) bs (le_n _)) as X. rewrite H in X. exact X.
  - intros (H1 & -> & H3). rewrite utf8_prefix_app by auto.
    pose proof (utf8_prefix_split (length r) r (le_n _)) as (X1 & X2 & X3).
    destruct (utf8_prefix r) as [s' r']. cbn [fst snd] in *.
    destruct s' as [|c s'].
    + simpl in X2. subst. rewrite app_nil_r. auto.
    + exfalso. apply Forall_cons_iff in X1. destruct X1 as [X1 _].
      apply (H3 c (as_bytes s' ++ r') X1). rewrite X2, as_bytes_cons, <- app_assoc. auto.
Qed.

Lemma from_utf8_spec : forall bs s, from_utf8 bs = Some s <-> Forall is_scalar s /\ as_bytes s = bs.
Proof.
  intros bs s. unfold from_utf8. destruct (utf8_prefix bs) as [s' r] eqn:E. split.
  - intros H. apply utf8_prefix_spec in E. destruct E as (E1 & E2 & E3).
    destruct r; simpl in H; [|discriminate]. inv H. rewrite app_nil_r. auto.
  - intros [H1 H2].
    assert (utf8_split bs s []) as X.
    { split; auto. split; [rewrite app_nil_r; auto|apply no_char_nil]. }
    apply utf8_prefix_spec in X. rewrite E in X. inv X. auto.
Qed.

Lemma as_bytes_inj : forall s1 s2, Forall is_scalar s1 -> Forall is_scalar s2 ->
  as_bytes s1 = as_bytes s2 -> s1 = s2.
Proof.
  intros s1 s2 H1 H2 E.
  assert (from_utf8 (as_bytes s1) = Some s1) as X by (apply from_utf8_spec; auto).
  assert (from_utf8 (as_bytes s1) = Some s2) as Y by (apply from_utf8_spec; auto).
  congruence.
Qed.

Lemma str_len_pos : forall s, (0 < str_len s)%nat <-> s <> [].
Proof.
  intros [|c s]; unfold str_len; simpl.
  - split; [lia|congruence].
  - split; [discriminate|]. intros _. rewrite app_length.
    pose proof (utf8_char_nonempty c). destruct (utf8_char c); [congruence|simpl; lia].
Qed.

Lemma next_chunk_spec : forall bs,
  match next_utf8_chunk bs with
  | Some s => s <> [] /\ exists rest, utf8_split bs s rest
  | None => no_char_at bs
  end.
Proof.
  intros bs. unfold next_utf8_chunk. destruct (from_utf8 bs) as [s|] eqn:E.
  - apply from_utf8_spec in E. destruct E as [E1 E2]. destruct s as [|c s]; simpl.
    + simpl in E2. subst. apply no_char_nil.
    + split; [discriminate|]. exists []. split; auto. rewrite app_nil_r. split; auto. apply no_char_nil.
  - destruct (utf8_prefix bs) as [s r] eqn:E2. destruct (Nat.ltb 0 (str_len s)) eqn:E3.
    + apply Nat.ltb_lt in E3. apply str_len_pos in E3. split; auto. exists r.
      apply utf8_prefix_spec. auto.
    + apply Nat.ltb_ge in E3. destruct s as [|c s]; [eapply prefix_nil_no_char; eauto|].
      exfalso. assert (0 < str_len (c :: s))%nat by (apply str_len_pos; discriminate). lia.
Qed.

Lemma split_at_byte_spec : forall n s,
  match split_at_byte n s with
  | Some (a, b) => s = a ++ b /\ str_len a = n
  | None => forall a b, s = a ++ b -> str_len a <> n
  end.
Proof.
  intros n s. revert n. induction s as [|c s IH]; intros [|n]; simpl; auto.
  - intros a b H. destruct a; [|discriminate]. unfold str_len. simpl. lia.
  - destruct (Nat.leb (length (utf8_char c)) (S n)) eqn:E.
    + apply Nat.leb_le in E. specialize (IH (S n - length (utf8_char c))%nat).
      destruct (split_at_byte _ s) as [[a b]|].
      * destruct IH as [-> H]. split; auto. unfold str_len in *. simpl. rewrite app_length, H. lia.
      * intros a b H. destruct a as [|x a]. { unfold str_len. simpl. lia. }
        simpl in H. inv H. specialize (IH a b eq_refl). unfold str_len in *. simpl.
        rewrite app_length. lia.
    + apply Nat.leb_gt in E. intros a b H. destruct a as [|x a]. { unfold str_len. simpl. lia. }
      simpl in H. inv H. unfold str_len. simpl. rewrite app_length. lia.
Qed.

Lemma split_at_byte_app : forall a b, split_at_byte (str_len a) (a ++ b) = Some (a, b).
Proof.
  intros a b. pose proof (split_at_byte_spec (str_len a) (a ++ b)) as H.
  destruct (split_at_byte (str_len a) (a ++ b)) as [[a' b']|].
  - destruct H as [H1 H2].
    revert a' b' H1 H2. induction a as [|c a IH]; intros a' b' H1 H2.
    + destruct a' as [|c' a']; [simpl in H1; congruence|].
      exfalso. change (str_len []) with 0%nat in H2.
      assert (0 < str_len (c' :: a'))%nat by (apply str_len_pos; discriminate). lia.
    + destruct a' as [|c' a'].
      * exfalso. change (str_len []) with 0%nat in H2.
        assert (0 < str_len (c :: a))%nat by (apply str_len_pos; discriminate). lia.
      * simpl in H1. injection H1 as <- H1. unfold str_len in H2. simpl in H2.
        rewrite !app_length in H2.
        assert (Some (a', b') = Some (a, b)) as X; [|inv X; auto].
        apply IH; auto. unfold str_len. lia.
  - exfalso. apply (H a b); auto.
Qed.
