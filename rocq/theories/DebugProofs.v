(** Proofs about [Debug] texts: escaping. *)

From Coq Require Import String List.
From Verif Require Import Lib Base Utf8 Canon Domain Debug SpecText SpecCanon SpecDebug Utf8Proofs.
Import ListNotations.
Open Scope N_scope.

(** ** Hexadecimal digits *)

Lemma hex_digit_spec : forall v, v < 16 -> hex_digit_value (hex_digit v) v.
Proof. intros v H. unfold hex_digit, hex_digit_value. destruct (v <? 10) eqn:E; lia. Qed.

Lemma hex_digit_det : forall d v w, hex_digit_value d v -> hex_digit_value d w -> v = w.
Proof. unfold hex_digit_value. lia. Qed.
Lemma hex_digit_inj : forall d e v, hex_digit_value d v -> hex_digit_value e v -> d = e.
Proof. unfold hex_digit_value. lia. Qed.

Lemma hex_value_nonempty : forall ds n, hex_value ds n -> ds <> [].
Proof. intros ds n H. inv H; [discriminate|]. intros X. apply app_eq_nil in X as [_ X]. discriminate. Qed.

Lemma hex_value_digits : forall ds n, hex_value ds n -> Forall (fun d => exists v, hex_digit_value d v) ds.
Proof. induction 1; [repeat constructor; eauto|]. apply Forall_app. split; [assumption|]. repeat constructor. eauto. Qed.

Lemma hex_value_det : forall ds n, hex_value ds n -> forall m, hex_value ds m -> n = m.
Proof.
  induction 1 as [d v Hd|ds n d v H IH Hd]; intros m Hm.
  - inversion Hm as [d' v' Hd' E1 E2|ds' n' d' v' H' Hd' E1 E2].
    + subst. eapply hex_digit_det; eauto.
    + apply hex_value_nonempty in H'. destruct ds'; [congruence|]. destruct ds'; discriminate.
  - inversion Hm as [d' v' Hd' E1 E2|ds' n' d' v' H' Hd' E1 E2].
    + apply hex_value_nonempty in H. destruct ds; [congruence|]. destruct ds; discriminate.
    + apply app_inj_tail in E1 as [-> ->]. rewrite (IH _ H'), (hex_digit_det _ _ _ Hd Hd'). reflexivity.
Qed.

Lemma hex_snoc : forall ds n d v, hex_value ds n -> hex_digit_value d v -> hex_value (ds ++ [d]) (16 * n + v).
Proof. intros. econstructor; eauto. Qed.

(** what is put in front of [acc]: the digits of [n] *)
Lemma hex_loop_spec : forall fuel n acc, n < 16 ^ N.of_nat (S fuel) ->
  exists ds, hex_loop (S fuel) n acc = ds ++ acc /\ hex_value ds n /\ (forall ds', ds = 48 :: ds' -> ds' = [])
    /\ (n <> 0 -> forall ds', ds <> 48 :: ds').
Proof.
  induction fuel as [|fuel IH]; intros n acc L.
  - change (16 ^ N.of_nat 1) with 16 in L. cbn [hex_loop]. exists [hex_digit (n mod 16)].
    assert (n mod 16 = n) as E by lia. rewrite E. assert (n / 16 = 0) as E2 by lia. rewrite E2. cbn [N.eqb].
    split; [reflexivity|]. split; [constructor; apply hex_digit_spec; lia|]. split.
    + intros ds' X. inv X. reflexivity.
    + intros H ds' X. inv X. unfold hex_digit in H1. destruct (n <? 10) eqn:?; lia.
  - remember (S fuel) as f eqn:Ef. cbn [hex_loop].
    destruct (n / 16 =? 0) eqn:E.
    + exists [hex_digit (n mod 16)]. assert (n mod 16 = n) as E1 by lia. rewrite E1.
      split; [reflexivity|]. split; [constructor; apply hex_digit_spec; lia|]. split.
      * intros ds' X. inv X. reflexivity.
      * intros H ds' X. inv X. unfold hex_digit in H1. destruct (n <? 10) eqn:?; lia.
    + subst f. destruct (IH (n / 16) (hex_digit (n mod 16) :: acc)) as (ds & E1 & H1 & H2 & H3).
      { rewrite Nat2N.inj_succ, N.pow_succ_r' in L. apply N.div_lt_upper_bound; lia. }
      exists (ds ++ [hex_digit (n mod 16)]). rewrite E1, <- app_assoc. split; [reflexivity|]. split.
      { replace n with (16 * (n / 16) + n mod 16) at 2 by lia. apply hex_snoc; [assumption|]. apply hex_digit_spec. lia. }
      assert (forall ds', ds ++ [hex_digit (n mod 16)] <> 48 :: ds') as X.
      { intros ds' X. destruct ds as [|d ds]; [apply (hex_value_nonempty _ _ H1); reflexivity|].
        inv X. eapply H3; [|reflexivity]. lia. }
      split; [intros ds' Y; destruct (X _ Y)|auto].
Qed.

(** no two digit sequences without leading zeros have the same value *)
Lemma hex_value_app_digit : forall ds d n, hex_value (ds ++ [d]) n -> ds <> [] ->
  exists m v, hex_value ds m /\ hex_digit_value d v /\ n = 16 * m + v.
Proof.
  intros ds d n H N. inversion H as [d' v' Hd' E1 E2|ds' n' d' v' H' Hd' E1 E2].
  - destruct ds as [|x [|y ds]]; try discriminate. congruence.
  - apply app_inj_tail in E1 as [-> ->]. eauto.
Qed.

Lemma hex_value_pos : forall ds n, hex_value ds n -> (forall ds', ds <> 48 :: ds') -> n <> 0.
Proof.
  induction 1 as [d v Hd|ds n d v H IH Hd]; intros X.
  - intros ->. apply (X []). unfold hex_digit_value in Hd. f_equal. lia.
  - assert (n <> 0); [|lia]. apply IH. intros ds' ->. apply (X (ds' ++ [d])). reflexivity.
Qed.

Definition no_zero (ds : str) : Prop := forall ds', ds = 48 :: ds' -> ds' = [].

Lemma hex_value_inj : forall n ds es, hex_value ds n -> hex_value es n -> no_zero ds -> no_zero es -> ds = es.
Proof.
  intros n ds es H. revert es. induction H as [d v Hd|ds n d v H IH Hd]; intros es He Z1 Z2.
  - inversion He as [d' v' Hd' E1 E2|ds' n' d' v' H' Hd' E1 E2].
    + subst. f_equal. eapply hex_digit_inj; eauto.
    + exfalso. assert (n' <> 0).
      { eapply hex_value_pos; [exact H'|]. intros x ->. subst es. specialize (Z2 _ eq_refl). destruct x; discriminate. }
      subst. unfold hex_digit_value in Hd, Hd'. lia.
  - assert (forall x, ds <> 48 :: x) as Y.
    { intros x ->. specialize (Z1 _ eq_refl). destruct x; discriminate. }
    inversion He as [d' v' Hd' E1 E2|ds' n' d' v' H' Hd' E1 E2].
    + exfalso. assert (n <> 0) by (eapply hex_value_pos; eauto). subst.
      unfold hex_digit_value in Hd, Hd'. lia.
    + assert (n = n' /\ v = v') as [-> ->] by (unfold hex_digit_value in Hd, Hd'; lia).
      rewrite (hex_digit_inj _ _ _ Hd Hd'). f_equal. apply IH; auto.
      * intros x ->. destruct (Y x eq_refl).
      * intros x ->. subst es. specialize (Z2 _ eq_refl). destruct x; discriminate.
Qed.

(** ** Characters *)

Lemma scalar_hex : forall c, is_scalar c -> exists ds, escape_unicode c = lit "\u{" ++ ds ++ lit "}"
  /\ hex_value ds c /\ no_zero ds.
Proof.
  intros c H. unfold escape_unicode. destruct (hex_loop_spec 5 c []) as (ds & E & H1 & H2 & _).
  { change (16 ^ N.of_nat 6) with 16777216. unfold is_scalar in H. lia. }
  rewrite E, app_nil_r. exists ds. split; [reflexivity|]. split; [exact H1|exact H2].
Qed.

Definition is_short (c : char) : bool := existsb (N.eqb c) (map fst short_escapes).

Lemma not_short : forall c, ~ In c (map fst short_escapes) <->
  c <> 0 /\ c <> 9 /\ c <> 10 /\ c <> 13 /\ c <> 34 /\ c <> 39 /\ c <> 92.
Proof.
  intros c. split.
  - intros H. repeat split; intros ->; apply H; simpl; tauto.
  - intros H X. simpl in X. intuition congruence.
Qed.

Lemma escape_exact : forall T first c x, is_scalar c ->
  escape_debug_ext T first true true c = x <-> char_shown T first c x.
Proof.
  intros T first c x S. unfold escape_debug_ext. rewrite !andb_true_r.
  destruct (c =? 0) eqn:E0; [|destruct (c =? 9) eqn:E1; [|destruct (c =? 13) eqn:E2; [|destruct (c =? 10) eqn:E3;
    [|destruct (c =? 92) eqn:E4; [|destruct (c =? 34) eqn:E5; [|destruct (c =? 39) eqn:E6]]]]]];
    repeat match goal with H : (c =? _) = true |- _ => apply N.eqb_eq in H; subst c end.
  1-7: (split; [intros <-; apply cs_short; simpl; tauto
               |intros H; inversion H as [e He|N|ds N]; [|destruct N; simpl; tauto|destruct N; simpl; tauto];
                simpl in He; repeat destruct He as [He|He]; try discriminate; try (inv He; reflexivity); destruct He]).
  assert (~ In c (map fst short_escapes)) as NS by (apply not_short; lia).
  assert (forall e, ~ In (c, e) short_escapes) as NS2.
  { intros e X. apply NS. apply in_map_iff. exists (c, e). auto. }
  destruct (first && tb_extended T c) eqn:EX.
  - apply andb_true_iff in EX as [-> EX]. destruct (scalar_hex c S) as (ds & -> & H1 & H2). split.
    + intros <-. apply cs_unicode; auto.
    + intros H. inversion H as [e He|N P X|ds' N P X Z]; subst.
      * destruct (NS2 _ He).
      * rewrite X in EX by reflexivity. discriminate.
      * rewrite (hex_value_inj c ds ds'); auto.
  - destruct (tb_printable T c) eqn:EP.
    + split.
      * intros <-. apply cs_plain; auto. intros ->. exact EX.
      * intros H. inversion H as [e He|N P X|ds' N P X Z]; subst.
        -- destruct (NS2 _ He).
        -- reflexivity.
        -- exfalso. destruct P as [P|[-> P]]; [congruence|]. simpl in EX. congruence.
    + destruct (scalar_hex c S) as (ds & -> & H1 & H2). split.
      * intros <-. apply cs_unicode; auto.
      * intros H. inversion H as [e He|N P X|ds' N P X Z]; subst.
        -- destruct (NS2 _ He).
        -- congruence.
        -- rewrite (hex_value_inj c ds ds'); auto.
Qed.

(** ** Values *)

Lemma shown_chars : forall T s bs t, Forall is_scalar s -> value_shown T false bs t ->
  value_shown T false (as_bytes s ++ bs) (flat_map (escape_debug_ext T false true true) s ++ t).
Proof.
  intros T s bs t H. revert bs t. induction H as [|c s Hc _ IH]; intros bs t V; [exact V|].
  rewrite as_bytes_cons. cbn [flat_map]. rewrite <- !app_assoc. apply vs_char; auto. apply escape_exact; auto.
Qed.

Lemma shown_first : forall T bs t, no_char_at bs -> value_shown T true bs t -> value_shown T false bs t.
Proof.
  intros T bs t N H. inv H; [constructor| |].
  - exfalso. apply (N c bs0 H0). reflexivity.
  - econstructor; eauto.
Qed.

Lemma shown_first' : forall T bs t first, no_char_at bs -> value_shown T true bs t -> value_shown T first bs t.
Proof. intros T bs t [|] N H; [assumption|]. apply shown_first; assumption. Qed.

Lemma skipn_bytes : forall s rest, skipn (str_len s) (as_bytes s ++ rest) = rest.
Proof. intros. unfold str_len. rewrite skipn_app, skipn_all, Nat.sub_diag. reflexivity. Qed.

Lemma bytes_loop_shown : forall T fuel bs, (length bs <= fuel)%nat -> Forall is_byte bs ->
  value_shown T true bs (bytes_loop T fuel bs).
Proof.
  intros T. induction fuel as [|fuel IH]; intros bs L B.
  { destruct bs; [constructor|simpl in L; lia]. }
  cbn [bytes_loop]. destruct bs as [|b bs]; [constructor|].
  pose proof (next_chunk_spec (b :: bs)) as C. destruct (next_utf8_chunk (b :: bs)) as [s|].
  - destruct C as (NE & rest & Hs & E & N). rewrite E, skipn_bytes. destruct s as [|c s]; [congruence|].
    rewrite as_bytes_cons, <- app_assoc. unfold escape_debug. rewrite <- app_assoc. inv Hs.
    apply vs_char; [assumption|apply escape_exact; auto|]. apply shown_chars; [assumption|].
    apply shown_first; [assumption|]. apply IH.
    + rewrite as_bytes_cons in E. apply (f_equal (@length _)) in E. rewrite !app_length in E.
      assert (length (utf8_char c) <> 0%nat) by (intros X; apply length_zero_iff_nil in X; apply (utf8_char_nonempty c X)).
      simpl in E, L. lia.
    + rewrite E in B. apply Forall_app in B as [_ B]. exact B.
  - inv B. unfold is_byte in H1. eapply vs_byte; try apply hex_digit_spec; [assumption|lia|lia|lia|].
    apply IH; [simpl in L; lia|assumption].
Qed.

Lemma utf8_char_eq : forall c d r s, is_scalar c -> is_scalar d -> utf8_char c ++ r = utf8_char d ++ s -> c = d /\ r = s.
Proof.
  intros c d r s Hc Hd E. pose proof (utf8_prefix_char c r Hc) as A. pose proof (utf8_prefix_char d s Hd) as B.
  rewrite E in A. rewrite A in B. destruct (utf8_prefix r), (utf8_prefix s). inv B.
  split; [reflexivity|]. apply app_inv_head in E. exact E.
Qed.

Lemma value_shown_det : forall T first bs t, value_shown T first bs t -> forall t', value_shown T first bs t' -> t = t'.
Proof.
  intros T first bs t H. induction H as [first|first c x bs t S C V IH|first b d1 d2 v1 v2 bs t N D1 D2 E V IH]; intros t' H'.
  - inversion H' as [f E1 E2|f c x bs' t0 S C V E1 E2|].
    + reflexivity.
    + apply app_eq_nil in E2 as [E2 _]. destruct (utf8_char_nonempty c E2).
  - inversion H' as [f E1 E2|f c' x' bs' t0 S' C' V' E1 E2|f b d1 d2 v1 v2 bs' t0 N D1 D2 E V' E1 E2].
    + exfalso. destruct (utf8_char c) eqn:U; [destruct (utf8_char_nonempty c U)|discriminate].
    + subst. apply utf8_char_eq in E2 as [-> ->]; auto. rewrite (IH _ V'). f_equal.
      apply escape_exact in C; auto. apply escape_exact in C'; auto. congruence.
    + exfalso. subst. apply (N c bs S). exact E2.
  - inversion H' as [f E1 E2|f c' x' bs' t0 S' C' V' E1 E2|f b' d1' d2' v1' v2' bs' t0 N' D1' D2' E' V' E1 E2].
    + exfalso. subst. apply (N c' bs' S'). symmetry. exact E2.
    + assert (v1 = v1' /\ v2 = v2') as [-> ->].
      { unfold hex_digit_value in *. lia. }
      rewrite (hex_digit_inj _ _ _ D1 D1'), (hex_digit_inj _ _ _ D2 D2'), (IH _ V'). reflexivity.
Qed.

Lemma bytes_debug_exact : forall T bs t, Forall is_byte bs ->
  bytes_debug T bs = t <-> exists e, t = [34] ++ e ++ [34] /\ value_shown T true bs e.
Proof.
  intros T bs t B. pose proof (bytes_loop_shown T (length bs) bs (Nat.le_refl _) B) as V. unfold bytes_debug. split.
  - intros <-. eauto.
  - intros (e & -> & H). rewrite (value_shown_det _ _ _ _ V _ H). reflexivity.
Qed.

(** ** Escaped text *)

Lemma hex_one_line : forall ds n, hex_value ds n -> one_line ds.
Proof.
  intros ds n H. apply hex_value_digits in H. eapply Forall_impl; [|exact H]. intros d [v D].
  unfold hex_digit_value in D. lia.
Qed.

Lemma one_line_b : forall t, forallb (fun c => (32 <=? c) && negb (c =? 127)) t = true -> one_line t.
Proof. intros t H. apply Forall_forall. intros c I. rewrite forallb_forall in H. specialize (H c I). lia. Qed.

Lemma one_line_app : forall a b, one_line (a ++ b) <-> one_line a /\ one_line b.
Proof. intros. apply Forall_app. Qed.

Lemma escaped_one_line : forall bs t, escaped bs t -> one_line t.
Proof.
  induction 1 as [|c bs t S H1 H2 H3 H4 E IH|c e bs t I E IH|c ds bs t S H E IH|d1 d2 v1 v2 bs t D1 D2 E IH].
  - constructor.
  - constructor; auto.
  - constructor; [lia|]. constructor; [|assumption]. simpl in I. repeat destruct I as [I|I]; try (inv I; lia).
  - rewrite !one_line_app. split; [apply one_line_b; reflexivity|]. split; [eapply hex_one_line; eauto|].
    split; [apply one_line_b; reflexivity|assumption].
  - rewrite !one_line_app. split; [apply one_line_b; reflexivity|]. split; [|assumption]. unfold hex_digit_value in *.
    constructor; [lia|]. constructor; [lia|constructor].
Qed.

Lemma shown_escaped : forall T first bs t, tables_ok T -> value_shown T first bs t -> escaped bs t.
Proof.
  intros T first bs t K. induction 1 as [first|first c x bs t S C V IH|first b d1 d2 v1 v2 bs t N D1 D2 E V IH].
  - constructor.
  - inv C.
    + pose proof H as I. simpl in I.
      assert (c < 128) by (repeat destruct I as [I|I]; try (inv I; lia)).
      rewrite utf8_char_ascii by assumption. apply es_short; assumption.
    + apply not_short in H. destruct (N.lt_ge_cases c 128) as [L|L].
      * apply (K c) in L. destruct L as [[L _] _]. specialize (L H0). apply es_char; auto; lia.
      * apply es_char; auto; lia.
    + rewrite <- !app_assoc. apply es_unicode; auto.
  - subst b. eapply es_byte; eauto.
Qed.

(** escaped text is read in one way only, up to the closing quote *)
Lemma digits_split : forall ds es r s, Forall (fun d => exists v, hex_digit_value d v) ds ->
  Forall (fun d => exists v, hex_digit_value d v) es -> ds ++ 125 :: r = es ++ 125 :: s -> ds = es /\ r = s.
Proof.
  intros ds es r s H. revert es. induction H as [|d ds [v D] _ IH]; intros es He E.
  - destruct He as [|e es [w W] _]; simpl in E; inv E; [auto|]. unfold hex_digit_value in W. lia.
  - destruct He as [|e es [w W] He]; simpl in E; inv E.
    + unfold hex_digit_value in D. lia.
    + destruct (IH _ He H1) as [-> ->]. auto.
Qed.

Lemma short_fun : forall c d e, In (c, e) short_escapes -> In (d, e) short_escapes -> c = d.
Proof.
  intros c d e H1 H2. simpl in H1, H2.
  repeat destruct H1 as [H1|H1]; try inv H1; repeat destruct H2 as [H2|H2]; try inv H2; reflexivity.
Qed.

Lemma short_not : forall c e, In (c, e) short_escapes -> e <> 117 /\ e <> 120.
Proof. intros c e H. simpl in H. repeat destruct H as [H|H]; try (inv H; lia). Qed.

Lemma escaped_prefix : forall bs t, escaped bs t -> forall bs' t' r s, escaped bs' t' ->
  t ++ 34 :: r = t' ++ 34 :: s -> bs = bs' /\ t = t' /\ r = s.
Proof.
  induction 1 as [|c bs t S H1 H2 H3 H4 E IH|c e bs t I E IH|c ds bs t S H E IH|d1 d2 v1 v2 bs t D1 D2 E IH];
    intros bs' t' r s E' X; inversion E' as [Y1 Y2|c' b' u S' H1' H2' H3' H4' F Y1 Y2|c' e' b' u I' F Y1 Y2|c' ds' b' u S' H' F Y1 Y2|d1' d2' w1 w2 b' u D1' D2' F Y1 Y2];
    subst; cbn [lit app] in X; try (injection X as X; lia); try (injection X; intros; subst; lia).
  - injection X as X. auto.
  - injection X as X1 X2. subst c'. destruct (IH _ _ _ _ F X2) as (-> & -> & ->). auto.
  - injection X as X1 X2. subst e'. rewrite (short_fun _ _ _ I I'). destruct (IH _ _ _ _ F X2) as (-> & -> & ->). auto.
  - injection X as X1 X2. apply short_not in I. lia.
  - injection X as X1 X2. apply short_not in I. lia.
  - injection X as X1 X2. apply short_not in I'. lia.
  - change (lit "}") with [125] in *. rewrite <- !app_assoc in X. cbn [app] in X.
    assert (ds ++ 125 :: (t ++ 34 :: r) = ds' ++ 125 :: (u ++ 34 :: s)) as X1.
    { do 3 apply (f_equal (@tl _)) in X. exact X. }
    apply digits_split in X1 as [<- X1]; try (eapply hex_value_digits; eauto).
    rewrite (hex_value_det _ _ H _ H'). destruct (IH _ _ _ _ F X1) as (-> & -> & ->). auto.
  - injection X as X1 X2. apply short_not in I'. lia.
  - injection X as X1 X2 X3. subst d1' d2'. rewrite (hex_digit_det _ _ _ D1 D1'), (hex_digit_det _ _ _ D2 D2').
    destruct (IH _ _ _ _ F X3) as (-> & -> & ->). auto.
Qed.

Lemma quoted_prefix : forall bs t bs' t' r s, quoted bs t -> quoted bs' t' -> t ++ r = t' ++ s -> bs = bs' /\ r = s.
Proof.
  intros bs t bs' t' r s (e & -> & E) (e' & -> & E') X. cbn [app] in X. injection X as X.
  rewrite <- !app_assoc in X. destruct (escaped_prefix _ _ E _ _ _ _ E' X) as (A & _ & B). auto.
Qed.

Lemma quoted_one_line : forall bs t, quoted bs t -> one_line t.
Proof.
  intros bs t (e & -> & E). rewrite !one_line_app. split; [apply one_line_b; reflexivity|]. split; [eapply escaped_one_line; eauto|].
  apply one_line_b; reflexivity.
Qed.

Lemma bytes_quoted : forall T bs, tables_ok T -> Forall is_byte bs -> quoted bs (bytes_debug T bs).
Proof.
  intros T bs K B. destruct (proj1 (bytes_debug_exact T bs _ B) eq_refl) as (e & E & V).
  exists e. split; [exact E|]. eapply shown_escaped; eauto.
Qed.

Lemma str_quoted : forall T s, tables_ok T -> Forall is_scalar s -> quoted (as_bytes s) (str_debug T s).
Proof.
  intros T s K H. unfold str_debug. eexists. split; [reflexivity|].
  induction H as [|c s S H IH]; [constructor|]. cbn [flat_map]. rewrite as_bytes_cons.
  unfold escape_debug_ext at 1. rewrite andb_true_r, andb_false_r.
  destruct (c =? 0) eqn:E0; [|destruct (c =? 9) eqn:E1; [|destruct (c =? 13) eqn:E2; [|destruct (c =? 10) eqn:E3;
    [|destruct (c =? 92) eqn:E4; [|destruct (c =? 34) eqn:E5]]]]];
    repeat match goal with H : (c =? _) = true |- _ => apply N.eqb_eq in H; subst c end.
  1-6: rewrite utf8_char_ascii by lia; apply es_short; [simpl; tauto|exact IH].
  assert (escaped (utf8_char c ++ as_bytes s)
    (escape_unicode c ++ flat_map (escape_debug_ext T true false true) s)) as U.
  { destruct (scalar_hex c S) as (ds & -> & H1 & H2). rewrite <- !app_assoc. apply es_unicode; auto. }
  destruct (true && tb_extended T c); [exact U|]. destruct (tb_printable T c) eqn:P; [|exact U].
  assert (32 <= c /\ c <> 127).
  { destruct (N.lt_ge_cases c 128) as [L|L]; [|lia]. apply (K c) in L. destruct L as [[L _] _]. specialize (L P). lia. }
  apply es_char; auto; lia.
Qed.

(** plain text is shown as it is *)
Lemma plain_shown : forall T first s, tables_ok T -> Forall (plain T) s -> value_shown T first (as_bytes s) s.
Proof.
  intros T first s K H. revert first. induction H as [|c s (S & P & X & H1 & H2 & H3) H IH]; intros first; [constructor|].
  rewrite as_bytes_cons. change (c :: s) with ([c] ++ s). apply vs_char; [assumption| |apply IH].
  apply cs_plain; [|assumption|auto]. apply not_short.
  destruct (N.lt_ge_cases c 128) as [L|L]; [|lia]. apply (K c) in L. destruct L as [[L _] _]. specialize (L P). lia.
Qed.

Lemma plain_debug : forall T s, tables_ok T -> Forall (plain T) s -> bytes_debug T (as_bytes s) = [34] ++ s ++ [34].
Proof.
  intros T s K H. apply bytes_debug_exact.
  - apply as_bytes_bytes. eapply Forall_impl; [|exact H]. intros c C. apply C.
  - exists s. split; [reflexivity|]. apply plain_shown; assumption.
Qed.

Lemma bytes_debug_inj : forall T bs bs', tables_ok T -> Forall is_byte bs -> Forall is_byte bs' ->
  bytes_debug T bs = bytes_debug T bs' -> bs = bs'.
Proof.
  intros T bs bs' K B B' E. apply (quoted_prefix bs (bytes_debug T bs) bs' (bytes_debug T bs') [] []);
    [apply bytes_quoted; assumption..|]. rewrite E. reflexivity.
Qed.

Lemma escape_str_exact : forall T c x, tables_ok T -> is_scalar c -> c <> 39 ->
  escape_debug_ext T true false true c = x <-> char_shown T true c x.
Proof.
  intros T c x K S N. rewrite <- (escape_exact T true c x S). unfold escape_debug_ext.
  apply N.eqb_neq in N. rewrite N. cbn [andb]. tauto.
Qed.

Lemma str_debug_exact : forall T s t, tables_ok T -> Forall is_scalar s ->
  str_debug T s = t <-> exists e, t = [34] ++ e ++ [34] /\ text_shown T s e.
Proof.
  intros T s t K S. assert (forall e, flat_map (escape_debug_ext T true false true) s = e <-> text_shown T s e) as X.
  { clear t. induction S as [|c s Sc S IH]; intros e; cbn [flat_map].
    - split; [intros <-; constructor|]. intros H. inv H. reflexivity.
    - destruct (N.eq_dec c 39) as [->|N].
      + assert (escape_debug_ext T true false true 39 = [39]) as ->.
        { unfold escape_debug_ext. cbn. destruct (K 39) as [P ->]; [reflexivity|]. replace (tb_printable T 39) with true; [reflexivity|].
          symmetry. apply P. lia. }
        split.
        * intros <-. apply tx_quote. apply IH. reflexivity.
        * intros H. inv H; [|congruence]. cbn [app]. f_equal. apply IH. assumption.
      + split.
        * intros <-. apply tx_char; [assumption|apply escape_str_exact; auto|apply IH; reflexivity].
        * intros H. inv H; [congruence|]. f_equal; [apply escape_str_exact; assumption|apply IH; assumption]. }
  unfold str_debug. split.
  - intros <-. eexists. split; [reflexivity|]. apply X. reflexivity.
  - intros (e & -> & H). apply X in H. rewrite H. reflexivity.
Qed.
