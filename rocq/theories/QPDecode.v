(** Proofs about decoding of src/quoted_printable.rs, and its round trip. *)

From Coq Require Import String List.
From Verif Require Import Lib Utf8 Parse QP SpecText Utf8Proofs QPProofs HeaderCanonProofs.

Lemma strip_suffix_app : forall a b, strip_suffix (a ++ b) b = a.
Proof.
  intros. unfold strip_suffix. rewrite app_length. replace (length a + length b - length b)%nat with (length a) by lia.
  rewrite firstn_app, Nat.sub_diag, firstn_all. simpl. apply app_nil_r.
Qed.

Lemma dkim_safe_not_ws : forall c t, dkim_safe c -> not_ws (c :: t).
Proof. intros c t H. unfold dkim_safe in H. simpl. lia. Qed.

Lemma qp_items_not_ws : forall s bs, qp_items s bs -> not_ws s.
Proof.
  intros s bs H. inv H; simpl; auto.
  - eapply dkim_safe_not_ws with (t := []) in H0. simpl in H0. tauto.
  - lia.
Qed.

(** ** Octets *)

Lemma strip_hexdig_app : forall f c v t, ofws f -> hexdigit c v ->
  strip_hexdig (f ++ c :: t) = Some (t, c).
Proof.
  intros f c v t Hf Hc. unfold strip_hexdig.
  rewrite skip_fws_app; auto; [|eapply hexdigit_not_ws; eauto].
  simpl. pose proof (hexdigit_range _ _ Hc) as R. apply hexdigit_iff in Hc. destruct Hc as [Hc _].
  rewrite Hc. rewrite utf8_char_ascii by lia. auto.
Qed.

Lemma strip_hexdig_some : forall s t c, strip_hexdig s = Some (t, c) ->
  exists f v, ofws f /\ s = f ++ c :: t /\ hexdigit c v.
Proof.
  intros s t c. unfold strip_hexdig. destruct (skip_fws_spec s) as (f & F1 & F2).
  destruct (skip_fws s) as [|c' s'] eqn:E; simpl; [discriminate|].
  destruct (is_hexdig c') eqn:Eh; [|discriminate].
  destruct (hexdig_val _ Eh) as (v & Hv). pose proof (hexdigit_range _ _ Hv).
  rewrite utf8_char_ascii by lia. simpl. intros H1. injection H1 as <- <-.
  exists f, v. auto.
Qed.

Lemma octet_app : forall f1 c1 v1 f2 c2 v2 t,
  ofws f1 -> hexdigit c1 v1 -> ofws f2 -> hexdigit c2 v2 ->
  strip_hex_octet (f1 ++ c1 :: f2 ++ c2 :: t) = Val (Some (t, v1 * 16 + v2)).
Proof.
  intros. unfold strip_hex_octet. rewrite (strip_hexdig_app _ _ v1) by auto.
  rewrite (strip_hexdig_app _ _ v2) by auto. unfold u8_from_digits.
  apply hexdigit_iff in H0, H2. destruct H0 as [_ ->], H2 as [_ ->]. reflexivity.
Qed.

Lemma octet_some : forall s t b, strip_hex_octet s = Val (Some (t, b)) ->
  exists f1 c1 v1 f2 c2 v2, ofws f1 /\ hexdigit c1 v1 /\ ofws f2 /\ hexdigit c2 v2
    /\ s = f1 ++ c1 :: f2 ++ c2 :: t /\ b = v1 * 16 + v2.
Proof.
  intros s t b. unfold strip_hex_octet. destruct (strip_hexdig s) as [[s1 c1]|] eqn:E1; [|discriminate].
  destruct (strip_hexdig s1) as [[s2 c2]|] eqn:E2; [|discriminate].
  destruct (strip_hexdig_some _ _ _ E1) as (f1 & v1 & A1 & A2 & A3).
  destruct (strip_hexdig_some _ _ _ E2) as (f2 & v2 & B1 & B2 & B3).
  unfold u8_from_digits. pose proof A3 as A4. pose proof B3 as B4.
  apply hexdigit_iff in A4, B4. destruct A4 as [_ A4], B4 as [_ B4]. rewrite A4, B4. simpl.
  intros H. injection H as <- <-. exists f1, c1, v1, f2, c2, v2. subst. auto 10.
Qed.

Lemma octet_total : forall s, strip_hex_octet s <> Panic.
Proof.
  intros s. unfold strip_hex_octet. destruct (strip_hexdig s) as [[s1 c1]|] eqn:E1; [|discriminate].
  destruct (strip_hexdig s1) as [[s2 c2]|] eqn:E2; [|discriminate].
  destruct (strip_hexdig_some _ _ _ E1) as (f1 & v1 & A1 & A2 & A3).
  destruct (strip_hexdig_some _ _ _ E2) as (f2 & v2 & B1 & B2 & B3).
  unfold u8_from_digits. apply hexdigit_iff in A3, B3. destruct A3 as [_ ->], B3 as [_ ->]. discriminate.
Qed.

Lemma octet_shrinks : forall s t b, strip_hex_octet s = Val (Some (t, b)) -> (length t < length s)%nat.
Proof.
  intros s t b H. destruct (octet_some _ _ _ H) as (f1 & c1 & v1 & f2 & c2 & v2 & _ & _ & _ & _ & -> & _).
  repeat (rewrite app_length; simpl). lia.
Qed.

(** ** Runs of safe characters *)

Lemma safe_run_some : forall s t, strip_dkim_safe_chars s = Some t ->
  exists a, a <> [] /\ s = a ++ t /\ Forall dkim_safe a
    /\ match t with [] => True | c :: _ => ~ dkim_safe c end.
Proof.
  intros [|c s] t; unfold strip_dkim_safe_chars; simpl; [discriminate|].
  destruct (is_dkim_safe_char c) eqn:E; [|discriminate]. simpl. intros H. injection H as <-.
  destruct (trim_start_spec is_dkim_safe_char s) as (a & H1 & H2 & H3).
  exists (c :: a). split; [discriminate|]. split; [simpl; congruence|]. split.
  - constructor; [apply is_dkim_safe_iff; auto|]. rewrite forallb_forall in H2. apply Forall_forall.
    intros x Hx. apply is_dkim_safe_iff. auto.
  - destruct H3 as [->|(d & r & -> & H3)]; auto. rewrite <- is_dkim_safe_iff. congruence.
Qed.

Lemma safe_run_none : forall s, strip_dkim_safe_chars s = None ->
  match s with [] => True | c :: _ => ~ dkim_safe c end.
Proof.
  intros [|c s]; unfold strip_dkim_safe_chars; simpl; auto.
  destruct (is_dkim_safe_char c) eqn:E; [discriminate|]. intros _. rewrite <- is_dkim_safe_iff. congruence.
Qed.

Lemma qp_items_run : forall a t f bs, Forall dkim_safe a -> a <> [] ->
  ofws f -> qp_items t bs -> qp_items (a ++ f ++ t) (as_bytes a ++ bs).
Proof.
  induction a as [|c a IH]; intros t f bs H Hn Hf Ht; [congruence|].
  apply Forall_cons_iff in H. destruct H as [H1 H2]. rewrite as_bytes_cons, <- app_assoc. simpl.
  destruct a as [|d a].
  - simpl. apply qi_safe; auto.
  - change (c :: (d :: a) ++ f ++ t) with (c :: [] ++ (d :: a) ++ f ++ t). apply qi_safe; auto.
    + left. auto.
    + apply IH; auto. discriminate.
Qed.

Lemma ofws_head : forall f c t, ofws (c :: f) -> not_ws (c :: t) -> False.
Proof.
  intros f c t [H|(w & W1 & W2 & [H|(w0 & V1 & H)])] Hn; [discriminate| |].
  - subst w. inversion W1; subst. simpl in Hn. lia.
  - destruct w0 as [|x w0]; simpl in H; inv H; simpl in Hn; [lia|]. inversion V1; subst. lia.
Qed.

(** inverting an item sequence that starts with a run of safe characters *)
Lemma qp_items_run_inv : forall a t bs, Forall dkim_safe a -> a <> [] ->
  match t with [] => True | c :: _ => ~ dkim_safe c end ->
  qp_items (a ++ t) bs ->
  exists f t' bs', ofws f /\ t = f ++ t' /\ qp_items t' bs' /\ bs = as_bytes a ++ bs'.
Proof.
  induction a as [|c a IH]; intros t bs H Hn Ht Hq; [congruence|].
  apply Forall_cons_iff in H. destruct H as [H1 H2]. simpl in Hq.
  inversion Hq as [|c' f s bs1 Hc Hf Hs E1 E2|]; subst.
  2:{ exfalso. unfold dkim_safe in H1. lia. }
  destruct a as [|d a].
  - simpl in *. exists f, s, bs1. rewrite app_nil_r. auto.
  - assert (f = []) as ->.
    { destruct f as [|x f]; auto. exfalso. simpl in *.
      match goal with E : x :: _ = d :: _ |- _ => inv E end.
      apply Forall_cons_iff in H2. destruct H2 as [H2 _].
      eapply (ofws_head f d); eauto. apply (dkim_safe_not_ws d []); auto. }
    simpl in *. subst s.
    destruct (IH t bs1 H2) as (f & t' & bs' & A1 & A2 & A3 & A4); auto; [discriminate|].
    exists f, t', bs'. split; auto. split; auto. split; auto. subst. rewrite <- !app_assoc. auto.
Qed.

(** ** The decoder *)

Lemma ofws_nil : ofws [].
Proof. left. auto. Qed.
#[local] Hint Resolve ofws_nil : core.

Lemma decode_sound : forall fuel state s acc r,
  qp_decode_loop fuel state s acc = Val (Some r) ->
  exists bs, r = acc ++ bs /\
    match state with QChar => qp_text s bs | QFws => qp_items s bs end.
Proof.
  assert (forall state s bs, qp_items s bs ->
    match state with QChar => qp_text s bs | QFws => qp_items s bs end) as Weak.
  { intros [] s bs H; auto. exists [], s. auto. }
  induction fuel as [|fuel IH]; intros state s acc r; cbn [qp_decode_loop]; [discriminate|].
  destruct (strip_prefix_char 61 s) as [s1|] eqn:E1.
  - unfold strip_prefix_char, strip_prefix_if in E1. destruct s as [|c s]; [discriminate|].
    destruct (61 =? c) eqn:Ec; [|discriminate]. apply N.eqb_eq in Ec. subst c. injection E1 as <-.
    destruct (strip_hex_octet s) as [[[s2 x]|]|] eqn:E2; simpl; try discriminate.
    intros H. destruct (octet_some _ _ _ E2) as (f1 & c1 & v1 & f2 & c2 & v2 & A1 & A2 & A3 & A4 & A5 & A6).
    apply IH in H. destruct H as (bs & -> & f & s' & F1 & F2 & F3).
    exists (x :: bs). rewrite <- app_assoc. split; auto. apply Weak. subst. apply qi_hex; auto.
  - destruct (strip_dkim_safe_chars s) as [s1|] eqn:E2.
    + destruct (safe_run_some _ _ E2) as (a & A1 & A2 & A3 & A4). rewrite A2.
      rewrite strip_suffix_app. intros H. apply IH in H. destruct H as (bs & -> & f & s' & F1 & F2 & F3).
      exists (as_bytes a ++ bs). rewrite <- app_assoc. split; auto. apply Weak. subst.
      apply qp_items_run; auto.
    + destruct (strip_fws s) as [s1|] eqn:E3.
      * destruct state; [|discriminate]. intros H. apply IH in H. destruct H as (bs & -> & H).
        exists bs. split; auto. destruct (strip_fws_some _ _ E3) as (f & F1 & F2 & _).
        exists f, s1. split; [right; auto|auto].
      * destruct s; simpl; [|discriminate]. intros H. injection H as <-. exists [].
        rewrite app_nil_r. split; auto. apply Weak. constructor.
Qed.

Lemma decode_complete : forall fuel state s f s' bs acc,
  (length s < fuel)%nat -> qp_items s' bs -> s = f ++ s' ->
  (state = QChar -> ofws f) -> (state = QFws -> f = []) ->
  qp_decode_loop fuel state s acc = Val (Some (acc ++ bs)).
Proof.
  induction fuel as [|fuel IH]; intros state s f s' bs acc L Hq Es Hc Hf; [lia|].
  assert (ofws f) as Hof by (destruct state; auto; rewrite Hf by auto; auto).
  pose proof (qp_items_not_ws _ _ Hq) as Hws.
  cbn [qp_decode_loop]. destruct f as [|x f].
  - simpl in Es. subst s. inversion Hq as [|c f s bs1 H1 H2 H3 E1 E2|f1 c1 v1 f2 c2 v2 f3 s bs1 H1 H2 H3 H4 H5 H6 E1 E2].
    + subst. simpl. rewrite app_nil_r. auto.
    + rewrite E1.
      replace (strip_prefix_char 61 s') with (@None str).
      2:{ subst s'. unfold strip_prefix_char, strip_prefix_if.
          replace (61 =? c) with false; auto. unfold dkim_safe in H1. lia. }
      destruct (strip_dkim_safe_chars s') as [t|] eqn:Et.
      * destruct (safe_run_some _ _ Et) as (a & A1 & A2 & A3 & A4).
        rewrite E2. rewrite A2 in *. rewrite strip_suffix_app.
        destruct (qp_items_run_inv a t bs A3 A1 A4 Hq) as (g & t' & bs' & B1 & B2 & B3 & B4).
        rewrite B4, app_assoc. eapply IH; eauto; [|discriminate].
        rewrite app_length in L. destruct a; [congruence|simpl in L; lia].
      * exfalso. apply safe_run_none in Et. subst s'. auto.
    + unfold strip_prefix_char at 1. unfold strip_prefix_if. cbn [N.eqb]. rewrite N.eqb_refl.
      rewrite (octet_app f1 c1 v1 f2 c2 v2) by auto. cbn [bind].
      assert (qp_decode_loop fuel QChar (f3 ++ s) (acc ++ [v1 * 16 + v2])
              = Val (Some ((acc ++ [v1 * 16 + v2]) ++ bs1))) as ->.
      { eapply IH; eauto; [|discriminate]. subst s'. simpl in L. repeat (rewrite app_length in L; simpl in L).
        rewrite app_length. lia. }
      rewrite <- app_assoc. auto.
  - destruct state; [|specialize (Hf eq_refl); discriminate].
    assert (fws (x :: f)) as Hx by (destruct Hof; [discriminate|auto]).
    assert (x = 32 \/ x = 9 \/ x = 13) as Xr.
    { destruct Hx as (w & W1 & W2 & [H|(w0 & V1 & H)]).
      - subst w. inversion W1; subst. lia.
      - destruct w0 as [|y w0]; simpl in H; inv H; [lia|]. inversion V1; subst. lia. }
    replace (strip_prefix_char 61 s) with (@None str).
    2:{ subst s. unfold strip_prefix_char, strip_prefix_if. simpl. replace (61 =? x) with false by lia. auto. }
    destruct (strip_dkim_safe_chars s) as [t|] eqn:Et.
    { exfalso. destruct (safe_run_some _ _ Et) as (a & A1 & A2 & A3 & A4). subst s.
      destruct a as [|y a]; [congruence|]. simpl in A2. inv A2. inversion A3; subst.
      unfold dkim_safe in *. lia. }
    rewrite Es. rewrite strip_fws_app by auto.
    eapply IH with (f := []); eauto; try discriminate.
    subst s. rewrite app_length in L. simpl in L. lia.
Qed.

Lemma decode_total : forall fuel state s acc, (length s < fuel)%nat ->
  qp_decode_loop fuel state s acc <> Panic.
Proof.
  induction fuel as [|fuel IH]; intros state s acc L; [lia|]. cbn [qp_decode_loop].
  destruct (strip_prefix_char 61 s) as [s1|] eqn:E1.
  - unfold strip_prefix_char, strip_prefix_if in E1. destruct s as [|c s]; [discriminate|].
    destruct (61 =? c) eqn:Ec; [|discriminate]. injection E1 as <-.
    pose proof (octet_total s). destruct (strip_hex_octet s) as [[[s2 x]|]|] eqn:E2; simpl; try congruence.
    apply IH. apply octet_shrinks in E2. simpl in L. lia.
  - destruct (strip_dkim_safe_chars s) as [s1|] eqn:E2.
    + apply IH. destruct (safe_run_some _ _ E2) as (a & A1 & -> & _). rewrite app_length in L.
      destruct a; [congruence|simpl in L; lia].
    + destruct (strip_fws s) as [s1|] eqn:E3; [|discriminate]. destruct state; [|discriminate].
      apply IH. destruct (strip_fws_some _ _ E3) as (f & F1 & -> & _). rewrite app_length in L.
      pose proof (fws_nonempty _ F1). destruct f; [congruence|simpl in L; lia].
Qed.

Theorem qp_decode_spec : forall s, exists r, qp_decode s = Val r
  /\ forall bs, r = Some bs <-> qp_text s bs.
Proof.
  intros s. unfold qp_decode. pose proof (decode_total (S (length s)) QChar s [] (Nat.lt_succ_diag_r _)).
  destruct (qp_decode_loop (S (length s)) QChar s []) as [r|] eqn:E; [|congruence].
  exists r. split; auto. intros bs. split.
  - intros ->. apply decode_sound in E. destruct E as (bs' & -> & E). auto.
  - intros (f & s' & H1 & H2 & H3).
    rewrite (decode_complete _ QChar s f s' bs []) in E; auto; [|discriminate].
    injection E as <-. auto.
Qed.

Lemma qp_decode_iff : forall s bs, qp_decode s = Val (Some bs) <-> qp_text s bs.
Proof.
  intros s bs. destruct (qp_decode_spec s) as (r & H1 & H2). rewrite H1, <- H2. split; congruence.
Qed.

(** ** Round trip *)

Lemma hex_escape_items : forall b s bs, is_byte b -> qp_items s bs ->
  qp_items (hex_escape b ++ s) (b :: bs).
Proof.
  intros b s bs Hb H. unfold is_byte in Hb. unfold hex_escape. simpl.
  replace b with ((b / 16) * 16 + b mod 16) at 3 by lia.
  apply (qi_hex [] _ (b / 16) [] _ (b mod 16) []); auto; apply hex_char_digit; lia.
Qed.

Lemma hex_escapes_items : forall cs s bs, Forall is_byte cs -> qp_items s bs ->
  qp_items (flat_map hex_escape cs ++ s) (cs ++ bs).
Proof.
  induction 1; cbn [flat_map]; auto. rewrite <- app_assoc. intros. simpl app at 3.
  apply hex_escape_items; auto.
Qed.

Theorem encoding_text : forall special ao bs s, Forall is_byte bs ->
  qp_encoding special ao bs s -> qp_items s bs.
Proof.
  intros special ao bs s Hb H. induction H.
  - constructor.
  - apply Forall_app in Hb. destruct Hb as [_ Hb]. destruct H0 as [H0 _].
    apply (qi_safe c [] s bs); auto.
  - apply Forall_app in Hb. destruct Hb as [Hc Hb]. apply hex_escapes_items; auto.
  - inversion Hb; subst. apply hex_escape_items; auto.
Qed.

(** ** Alphabet *)

Lemma hex_char_range : forall d, d < 16 -> (48 <= hex_char d <= 57) \/ (65 <= hex_char d <= 70).
Proof.
  intros d H. assert (In (hex_char d) (lit "0123456789ABCDEF")) as X.
  { apply nth_In. simpl. lia. }
  simpl in X. unfold hex_char in *. repeat (destruct X as [X|X]; [rewrite <- X; lia|]). destruct X.
Qed.

(** ** Insertion of folding whitespace *)

Lemma inserted_nil : forall s t, inserted ofws s t -> s = [] -> ofws t.
Proof. intros s t H E. destruct H; [auto|discriminate]. Qed.

Lemma items_inserted : forall s bs, qp_items s bs ->
  (forall c, In c s -> c <> 32 /\ c <> 9 /\ c <> 13) ->
  forall t, inserted ofws s t -> qp_text t bs.
Proof.
  assert (forall f s, ofws f -> (forall c, In c (f ++ s) -> c <> 32 /\ c <> 9 /\ c <> 13) -> f = []) as NoF.
  { intros [|x f] s Hf H; auto. exfalso. eapply (ofws_head f x []); eauto. apply H. simpl. auto. }
  intros s bs H. induction H; intros Hw t Hi.
  - inv Hi. exists t, []. rewrite app_nil_r. split; auto. split; auto. constructor.
  - assert (f = []) as -> by (apply (NoF f s); auto; intros; apply Hw; simpl; auto).
    simpl in *. inv Hi. destruct (IHqp_items (fun c Hc => Hw c (or_intror Hc)) _ H6) as (g & s' & G1 & G2 & G3).
    exists f, (c :: t0). split; auto. split; auto. subst. apply qi_safe; auto.
  - assert (f1 = []) as ->.
    { apply (NoF f1 (c1 :: f2 ++ c2 :: f3 ++ s)); auto; intros; apply Hw; simpl; auto. }
    simpl in *.
    assert (f2 = []) as ->.
    { apply (NoF f2 (c2 :: f3 ++ s)); auto; intros; apply Hw; simpl; auto. }
    simpl in *.
    assert (f3 = []) as ->.
    { apply (NoF f3 s); auto; intros; apply Hw; simpl; auto. }
    simpl in *. inv Hi. inv H9. inv H11.
    destruct (IHqp_items (fun c Hc => Hw c (or_intror (or_intror (or_intror Hc)))) _ H12) as (g & s' & G1 & G2 & G3).
    eexists f, _. split; auto. split; [reflexivity|]. subst. apply qi_hex; auto.
Qed.

(** ** Sections *)

Lemma qp_section_loop_spec : forall n s acc, (length s <= n)%nat ->
  exists r, qp_section_loop s acc = Val r
    /\ forall bs, r = Some bs <-> exists bs', bs = acc ++ bs' /\ qp_section s bs'.
Proof.
  induction n as [|n IH]; intros s acc L.
  { destruct s; [|simpl in L; lia]. exists (Some acc). split; auto. intros bs. split.
    - intros H. inv H. exists []. rewrite app_nil_r. split; auto. constructor.
    - intros (bs' & -> & H). inv H. rewrite app_nil_r. auto. }
  destruct s as [|c s].
  { exists (Some acc). split; auto. intros bs. split.
    - intros H. inv H. exists []. rewrite app_nil_r. split; auto. constructor.
    - intros (bs' & -> & H). inv H. rewrite app_nil_r. auto. }
  cbn [qp_section_loop].
  assert (forall bs, qp_section (61 :: s) bs -> exists c1 v1 c2 v2 s2 bs2, s = c1 :: c2 :: s2
            /\ hexdigit c1 v1 /\ hexdigit c2 v2 /\ qp_section s2 bs2 /\ bs = v1 * 16 + v2 :: bs2) as Inv.
  { intros bs H. inv H. { unfold dkim_safe in *. lia. } exists c1, v1, c2, v2, s0, bs0. auto 10. }
  destruct (c =? 61) eqn:Ec.
  - apply N.eqb_eq in Ec. subst c.
    assert (forall bs : list byte, None = Some bs <-> False) as NF by (split; easy).
    destruct s as [|c1 s1].
    { exists None. split; auto. intros bs. rewrite NF. split; [easy|]. intros (bs' & _ & H).
      apply Inv in H. destruct H as (? & ? & ? & ? & ? & ? & H & _). discriminate. }
    destruct (is_hexdig c1) eqn:E1.
    2:{ exists None. split; auto. intros bs. rewrite NF. split; [easy|]. intros (bs' & _ & H).
        apply Inv in H. destruct H as (? & ? & ? & ? & ? & ? & H & H1 & _). inv H.
        apply hexdigit_iff in H1. destruct H1. congruence. }
    destruct s1 as [|c2 s2].
    { exists None. split; auto. intros bs. rewrite NF. split; [easy|]. intros (bs' & _ & H).
      apply Inv in H. destruct H as (? & ? & ? & ? & ? & ? & H & _). discriminate. }
    destruct (is_hexdig c2) eqn:E2.
    2:{ exists None. split; auto. intros bs. rewrite NF. split; [easy|]. intros (bs' & _ & H).
        apply Inv in H. destruct H as (? & ? & ? & ? & ? & ? & H & _ & H1 & _). inv H.
        apply hexdigit_iff in H1. destruct H1. congruence. }
    destruct (hexdig_val _ E1) as (v1 & V1). destruct (hexdig_val _ E2) as (v2 & V2).
    unfold u8_from_digits. pose proof V1 as V1'. pose proof V2 as V2'.
    apply hexdigit_iff in V1', V2'. destruct V1' as [_ ->], V2' as [_ ->]. cbn [bind].
    simpl in L. destruct (IH s2 (acc ++ [v1 * 16 + v2])) as (r & R1 & R2); [lia|].
    exists r. split; auto. intros bs. rewrite R2. split.
    + intros (bs' & -> & H). exists (v1 * 16 + v2 :: bs'). rewrite <- app_assoc. split; auto. constructor; auto.
    + intros (bs' & -> & H). apply Inv in H. destruct H as (a & va & b & vb & t & u & H & H1 & H2 & H3 & H4).
      inv H. exists u. rewrite <- app_assoc. rewrite (hexdigit_det _ _ _ V1 H1), (hexdigit_det _ _ _ V2 H2). auto.
  - apply N.eqb_neq in Ec. destruct (is_dkim_safe_char c || is_wsp c) eqn:E1.
    + simpl in L. destruct (IH s (acc ++ utf8_char c)) as (r & R1 & R2); [lia|].
      exists r. split; auto. intros bs. rewrite R2.
      assert (dkim_safe c \/ c = 32 \/ c = 9) as Hc.
      { apply orb_true_iff in E1. rewrite is_dkim_safe_iff, is_wsp_iff in E1. auto. }
      split.
      * intros (bs' & -> & H). exists (utf8_char c ++ bs'). rewrite <- app_assoc. split; auto. constructor; auto.
      * intros (bs' & -> & H). inv H; [|congruence]. exists bs. rewrite <- app_assoc. auto.
    + exists None. split; auto. intros bs. split; [easy|]. intros (bs' & _ & H). exfalso. inv H; [|congruence].
      apply orb_false_iff in E1. destruct E1 as [E1 E2].
      assert (~ dkim_safe c) by (rewrite <- is_dkim_safe_iff; congruence).
      assert (~ (c = 32 \/ c = 9)) by (rewrite <- is_wsp_iff; congruence). tauto.
Qed.

Theorem qp_section_spec : forall s, exists r, decode_qp_section s = Val r
  /\ forall bs, r = Some bs <-> qp_section s bs.
Proof.
  intros s. destruct (qp_section_loop_spec (length s) s [] (le_n _)) as (r & H1 & H2).
  exists r. split; auto. intros bs. rewrite H2. simpl. split.
  - intros (bs' & -> & H). auto.
  - eauto.
Qed.

(** ** Characters of the encoder output *)

Definition hex_or_eq (c : char) : Prop := c = 61 \/ (48 <= c <= 57) \/ (65 <= c <= 70).

Lemma hex_escape_chars : forall b c, is_byte b -> In c (hex_escape b) -> hex_or_eq c.
Proof.
  intros b c Hb H. unfold is_byte in Hb. unfold hex_or_eq. simpl in H. destruct H as [<-|[<-|[<-|[]]]]; auto.
  - right. apply hex_char_range. lia.
  - right. apply hex_char_range. lia.
Qed.

Lemma encoding_chars : forall special ao bs s, Forall is_byte bs -> qp_encoding special ao bs s ->
  forall c, In c s -> hex_or_eq c \/ (is_scalar c /\ literal special ao c).
Proof.
  intros special ao bs s Hb H. induction H; intros x Hx.
  - destruct Hx.
  - apply Forall_app in Hb. destruct Hx as [<-|Hx]; auto. apply IHqp_encoding; tauto.
  - apply Forall_app in Hb. destruct Hb as [Hb1 Hb2]. apply in_app_or in Hx. destruct Hx as [Hx|Hx]; auto.
    apply in_flat_map in Hx. destruct Hx as (b & B1 & B2). left. rewrite Forall_forall in Hb1.
    eapply hex_escape_chars; eauto.
  - inversion Hb; subst. apply in_app_or in Hx. destruct Hx as [Hx|Hx]; auto.
    left. eapply hex_escape_chars; eauto.
Qed.

Lemma encoding_no_blank : forall special ao bs s, Forall is_byte bs -> qp_encoding special ao bs s ->
  forall c, In c s -> c <> 32 /\ c <> 9 /\ c <> 13.
Proof.
  intros special ao bs s Hb H c Hc. destruct (encoding_chars _ _ _ _ Hb H c Hc) as [X|[_ [X _]]].
  - unfold hex_or_eq in X. lia.
  - unfold dkim_safe in X. lia.
Qed.

Theorem roundtrip_folded : forall special ao bs t, Forall is_byte bs ->
  inserted ofws (encode_internal special ao bs) t -> qp_decode t = Val (Some bs).
Proof.
  intros special ao bs t Hb Ht. apply qp_decode_iff.
  pose proof (encode_spec special ao bs Hb) as H.
  eapply items_inserted; eauto.
  - eapply encoding_text; eauto.
  - eapply encoding_no_blank; eauto.
Qed.

Lemma inserted_refl : forall s, inserted ofws s s.
Proof. induction s; [constructor; left; auto|apply (ins_cons _ []); auto; left; auto]. Qed.
