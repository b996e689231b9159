(** Proofs about src/parse.rs and src/quoted_printable.rs. *)

From Coq Require Import String List.
From Verif Require Import Lib Utf8 Parse QP SpecText Utf8Proofs.

(** ** Folding whitespace *)

Definition not_ws (t : str) : Prop :=
  match t with [] => True | c :: _ => c <> 32 /\ c <> 9 /\ c <> 13 end.
Definition not_wsp (t : str) : Prop :=
  match t with [] => True | c :: _ => c <> 32 /\ c <> 9 end.

Lemma not_ws_wsp : forall t, not_ws t -> not_wsp t.
Proof. intros [|c t]; simpl; tauto. Qed.

Lemma is_wsp_iff : forall c, is_wsp c = true <-> c = 32 \/ c = 9.
Proof. intros. unfold is_wsp, SP, TAB. rewrite orb_true_iff, !N.eqb_eq. tauto. Qed.

Lemma wsps_forallb : forall w, wsps w <-> forallb is_wsp w = true.
Proof.
  intros w. unfold wsps. rewrite forallb_forall, Forall_forall.
  split; intros H x Hx; apply is_wsp_iff; auto.
Qed.

Lemma trim_wsp_not : forall t, not_wsp t -> trim_start is_wsp t = t.
Proof.
  intros [|c t]; simpl; auto. intros [H1 H2].
  destruct (is_wsp c) eqn:E; auto. apply is_wsp_iff in E. destruct E; congruence.
Qed.

Lemma trim_wsp_spec : forall s, exists w, wsps w /\ s = w ++ trim_start is_wsp s
  /\ not_wsp (trim_start is_wsp s).
Proof.
  intros s. destruct (trim_start_spec is_wsp s) as (w & H1 & H2 & H3). exists w.
  split; [apply wsps_forallb; auto|]. split; auto.
  destruct H3 as [->|(c & r & -> & H)]; simpl; auto.
  assert (~ (c = 32 \/ c = 9)) as X by (rewrite <- is_wsp_iff; congruence). tauto.
Qed.

Lemma strip_wsp_app : forall w t, wsps w -> w <> [] -> not_wsp t -> strip_wsp (w ++ t) = Some t.
Proof.
  intros [|c w] t H Hn Ht; [congruence|]. apply wsps_forallb in H. simpl in H.
  apply andb_true_iff in H. destruct H as [H1 H2].
  unfold strip_wsp. simpl. rewrite H1. simpl. rewrite trim_start_app_all by auto.
  rewrite trim_wsp_not; auto.
Qed.

Lemma strip_wsp_none : forall t, not_wsp t -> strip_wsp t = None.
Proof.
  intros [|c t]; unfold strip_wsp; simpl; auto. intros [H1 H2].
  destruct (is_wsp c) eqn:E; auto. apply is_wsp_iff in E. destruct E; congruence.
Qed.

Lemma strip_wsp_some : forall s t, strip_wsp s = Some t ->
  exists w, wsps w /\ w <> [] /\ s = w ++ t /\ not_wsp t.
Proof.
  intros [|c s] t; unfold strip_wsp; simpl; [discriminate|].
  destruct (is_wsp c) eqn:E; [|discriminate]. intros H. inv H.
  destruct (trim_wsp_spec s) as (w & H1 & H2 & H3). exists (c :: w).
  split; [constructor; auto; apply is_wsp_iff; auto|]. split; [discriminate|]. split; auto.
  simpl. congruence.
Qed.

Lemma strip_wsp_none_inv : forall s, strip_wsp s = None -> not_wsp s.
Proof.
  intros [|c s]; unfold strip_wsp; simpl; auto. destruct (is_wsp c) eqn:E; [discriminate|].
  intros _. assert (~ (c = 32 \/ c = 9)) as X by (rewrite <- is_wsp_iff; congruence). tauto.
Qed.

Lemma strip_crlf : forall s t, strip_prefix CRLF s = Some t <-> s = 13 :: 10 :: t.
Proof.
  intros s t. unfold CRLF, CR, LF. destruct s as [|a [|b s]]; simpl.
  - split; discriminate.
  - split; [|discriminate]. destruct (13 =? a); discriminate.
  - destruct (13 =? a) eqn:E1; [apply N.eqb_eq in E1|apply N.eqb_neq in E1].
    + destruct (10 =? b) eqn:E2; [apply N.eqb_eq in E2|apply N.eqb_neq in E2].
      * subst. split; intros H; inv H; auto.
      * split; intros H; [discriminate|inv H; congruence].
    + split; intros H; [discriminate|inv H; congruence].
Qed.

Lemma strip_crlf_none : forall s, strip_prefix CRLF s = None <-> forall t, s <> 13 :: 10 :: t.
Proof.
  intros s. split.
  - intros H t E. apply strip_crlf in E. congruence.
  - intros H. destruct (strip_prefix CRLF s) eqn:E; auto. apply strip_crlf in E. destruct (H _ E).
Qed.

(** what the decoder is left with after optional folding whitespace *)
Lemma strip_fws_some : forall s t, strip_fws s = Some t ->
  exists f, fws f /\ s = f ++ t /\ not_wsp t.
Proof.
  intros s t. unfold strip_fws. destruct (strip_wsp s) as [s1|] eqn:E1.
  - destruct (strip_wsp_some _ _ E1) as (w & W1 & W2 & W3 & W4).
    destruct (strip_prefix CRLF s1) as [s2|] eqn:E2.
    + apply strip_crlf in E2. destruct (strip_wsp s2) as [s3|] eqn:E3; intros H; inv H.
      * destruct (strip_wsp_some _ _ E3) as (w' & V1 & V2 & V3 & V4). subst.
        exists (w ++ [13; 10] ++ w'). split; [|split; auto].
        -- exists w'. split; auto. split; auto. right. exists w. auto.
        -- rewrite <- app_assoc. auto.
      * exists w. split; [exists w; auto|auto].
    + intros H. inv H. exists w. split; [exists w; auto|auto].
  - destruct (strip_prefix CRLF s) as [s1|] eqn:E2; [|discriminate].
    apply strip_crlf in E2. intros H.
    destruct (strip_wsp_some _ _ H) as (w' & V1 & V2 & V3 & V4). subst.
    exists ([13; 10] ++ w'). split; [|split; auto].
    exists w'. split; auto. split; auto. right. exists []. split; [constructor|auto].
Qed.

Lemma strip_fws_app : forall f t, fws f -> not_ws t -> strip_fws (f ++ t) = Some t.
Proof.
  intros f t (w & W1 & W2 & [->|(w0 & V1 & ->)]) Ht; unfold strip_fws.
  - rewrite strip_wsp_app; auto using not_ws_wsp.
    destruct (strip_prefix CRLF t) eqn:E; auto. apply strip_crlf in E. subst.
    simpl in Ht. destruct Ht as (_ & _ & Ht). congruence.
  - destruct w0 as [|c w0].
    + replace (([] ++ [13; 10] ++ w) ++ t) with (13 :: 10 :: w ++ t) by reflexivity.
      rewrite (proj2 (strip_crlf (13 :: 10 :: w ++ t) (w ++ t))); auto.
      rewrite strip_wsp_none by (simpl; lia). apply strip_wsp_app; auto using not_ws_wsp.
    + rewrite <- app_assoc. rewrite strip_wsp_app; auto; [|discriminate|simpl; lia].
      replace (([13; 10] ++ w) ++ t) with (13 :: 10 :: w ++ t) by reflexivity.
      rewrite (proj2 (strip_crlf _ (w ++ t))); auto. rewrite strip_wsp_app; auto using not_ws_wsp.
Qed.

Lemma strip_fws_none : forall t, not_ws t -> strip_fws t = None.
Proof.
  intros t H. unfold strip_fws. rewrite strip_wsp_none by auto using not_ws_wsp.
  destruct (strip_prefix CRLF t) eqn:E; auto. apply strip_crlf in E. subst. simpl in H. lia.
Qed.

Lemma skip_fws_app : forall f t, ofws f -> not_ws t -> skip_fws (f ++ t) = t.
Proof.
  intros f t [->|H] Ht; unfold skip_fws.
  - simpl. rewrite strip_fws_none; auto.
  - rewrite strip_fws_app; auto.
Qed.

Lemma skip_fws_spec : forall s, exists f, ofws f /\ s = f ++ skip_fws s.
Proof.
  intros s. unfold skip_fws. destruct (strip_fws s) as [t|] eqn:E; simpl.
  - destruct (strip_fws_some _ _ E) as (f & H1 & H2 & _). exists f. split; auto. right. auto.
  - exists []. split; auto. left. auto.
Qed.

(** longest match *)
Lemma fws_nonempty : forall f, fws f -> f <> [].
Proof.
  intros f (w & _ & W & [->|(w0 & _ & ->)]); auto. destruct w0; discriminate.
Qed.

Lemma wsps_app_inv : forall w1 t1 w2 t2, wsps w1 -> wsps w2 -> not_wsp t2 ->
  w1 ++ t1 = w2 ++ t2 -> (length w1 <= length w2)%nat.
Proof.
  induction w1 as [|a w1 IH]; simpl; intros t1 w2 t2 H1 H2 H3 E; [lia|].
  inversion H1; subst. destruct w2 as [|b w2].
  - simpl in E. subst t2. simpl in H3. lia.
  - simpl in E. inv E. inversion H2; subst. simpl. apply le_n_S. eapply IH; eauto.
Qed.

Lemma wsps_app_eq : forall w1 t1 w2 t2, wsps w1 -> wsps w2 -> not_wsp t1 -> not_wsp t2 ->
  w1 ++ t1 = w2 ++ t2 -> w1 = w2 /\ t1 = t2.
Proof.
  intros. assert (length w1 = length w2) as L.
  { apply Nat.le_antisymm; [eapply wsps_app_inv with (t2 := t2)|eapply wsps_app_inv with (t2 := t1)]; eauto. }
  revert w2 H0 H3 L. clear H. induction w1 as [|a w1 IH]; intros [|b w2] H0 E L; try discriminate; auto.
  simpl in E. inv E. inversion H0; subst. destruct (IH w2); auto. subst. auto.
Qed.

Theorem strip_fws_longest : forall s,
  match strip_fws s with
  | Some t => exists f, fws f /\ s = f ++ t
      /\ forall f' t', fws f' -> s = f' ++ t' -> (length f' <= length f)%nat
  | None => forall f' t', fws f' -> s <> f' ++ t'
  end.
Proof.
  intros s.
  destruct (strip_fws s) as [t|] eqn:E.
  - destruct (strip_fws_some _ _ E) as (f & H1 & H2 & H3). exists f. split; auto. split; auto.
    intros f' t' (w' & W1 & W2 & [->|(w0' & V1 & ->)]) Es.
    + destruct H1 as (w & X1 & X2 & [->|(w0 & Y1 & ->)]).
      * eapply wsps_app_inv with (t2 := t) (t1 := t'); eauto. congruence.
      * rewrite H2 in Es. rewrite <- app_assoc in Es. rewrite !app_length. simpl.
        assert (length w' <= length w0)%nat; [|lia].
        eapply wsps_app_inv with (t2 := ([13;10] ++ w) ++ t) (t1 := t'); eauto. simpl. lia.
    + (* fold *)
      assert (strip_fws s = Some (trim_start is_wsp t')) as X.
      { rewrite Es. unfold strip_fws. destruct (trim_wsp_spec t') as (u & U1 & U2 & U3).
        assert (strip_wsp (w' ++ t') = Some (trim_start is_wsp t')) as Y.
        { rewrite U2 at 1. rewrite app_assoc. apply strip_wsp_app; auto.
          - apply Forall_app. auto.
          - destruct w'; [congruence|discriminate]. }
        destruct w0' as [|c w0'].
        - replace (([] ++ [13; 10] ++ w') ++ t') with (13 :: 10 :: w' ++ t') by reflexivity.
          rewrite strip_wsp_none by (simpl; lia). rewrite (proj2 (strip_crlf _ (w' ++ t'))); auto.
        - rewrite <- app_assoc. rewrite strip_wsp_app; auto; [|discriminate|simpl; lia].
          replace (([13; 10] ++ w') ++ t') with (13 :: 10 :: w' ++ t') by reflexivity.
          rewrite (proj2 (strip_crlf _ (w' ++ t'))); auto. rewrite Y. auto. }
      rewrite E in X. injection X as ->.
      destruct (trim_wsp_spec t') as (u & U1 & U2 & U3).
      assert (length s = length s) as L by auto. rewrite H2 in L at 1. rewrite Es in L.
      rewrite !app_length in *. rewrite U2 in L at 2. rewrite app_length in L. simpl in *. lia.
  - intros f' t' H Es. subst s. destruct H as (w & W1 & W2 & H).
    unfold strip_fws in E.
    destruct (trim_wsp_spec t') as (u & U1 & U2 & U3).
    assert (strip_wsp (w ++ t') = Some (trim_start is_wsp t')) as Y.
    { rewrite U2 at 1. rewrite app_assoc. apply strip_wsp_app; auto.
      - apply Forall_app. auto.
      - destruct w; [congruence|discriminate]. }
    destruct H as [->|(w0 & V1 & ->)].
    + rewrite Y in E. repeat dmatch_hyp E; discriminate.
    + destruct w0 as [|c w0].
      * replace (([] ++ [13; 10] ++ w) ++ t') with (13 :: 10 :: w ++ t') in E by reflexivity.
        rewrite strip_wsp_none in E by (simpl; lia). rewrite (proj2 (strip_crlf _ (w ++ t'))) in E; auto.
        congruence.
      * rewrite <- app_assoc in E. rewrite strip_wsp_app in E; auto; [|discriminate|simpl; lia].
        repeat dmatch_hyp E; discriminate.
Qed.

(** ** Safe characters, digits *)

Lemma is_dkim_safe_iff : forall c, is_dkim_safe_char c = true <-> dkim_safe c.
Proof. intros. unfold is_dkim_safe_char, dkim_safe, in_range, is_ascii. lia. Qed.

Lemma is_dkim_safe_ascii_iff : forall c,
  is_dkim_safe_char_ascii_only c = true <-> dkim_safe c /\ c < 128.
Proof. intros. unfold is_dkim_safe_char_ascii_only, dkim_safe, in_range. lia. Qed.

Lemma literal_iff : forall special ao c, qp_is_safe special ao c = true <-> literal special ao c.
Proof.
  intros special ao c. unfold qp_is_safe, literal. rewrite andb_true_iff, negb_true_iff.
  assert ((match special with Some d => d =? c | None => false end) = false <-> special <> Some c) as ->.
  { destruct special as [d|]; [|split; congruence]. rewrite N.eqb_neq. split; congruence. }
  destruct ao.
  - rewrite is_dkim_safe_ascii_iff. tauto.
  - rewrite is_dkim_safe_iff. split; [intros []; split; auto; split; auto; discriminate|tauto].
Qed.

Lemma hexdigit_iff : forall c v, hexdigit c v <-> is_hexdig c = true /\ hex_to_u8 c = Val v.
Proof.
  intros c v. split.
  - intros H. inv H; unfold is_hexdig, is_ascii_hexdigit, is_ascii_digit, hex_to_u8, in_range.
    + split; [lia|]. replace ((48 <=? 48 + v) && (48 + v <=? 57)) with true by lia. f_equal. lia.
    + split; [lia|]. replace ((48 <=? 65 + d) && (65 + d <=? 57)) with false by lia.
      replace ((65 <=? 65 + d) && (65 + d <=? 70)) with true by lia. f_equal. lia.
    + split; [lia|]. replace ((48 <=? 97 + d) && (97 + d <=? 57)) with false by lia.
      replace ((65 <=? 97 + d) && (97 + d <=? 70)) with false by lia.
      replace ((97 <=? 97 + d) && (97 + d <=? 102)) with true by lia. f_equal. lia.
  - unfold is_hexdig, is_ascii_hexdigit, is_ascii_digit, hex_to_u8, in_range. intros [H1 H2].
    destruct ((48 <=? c) && (c <=? 57)) eqn:E1.
    { injection H2 as <-. replace c with (48 + (c - 48)) at 1 by lia. constructor. lia. }
    destruct ((65 <=? c) && (c <=? 70)) eqn:E2.
    { injection H2 as <-. replace c with (65 + (c - 65)) at 1 by lia.
      replace (c - 55) with (10 + (c - 65)) by lia. constructor. lia. }
    destruct ((97 <=? c) && (c <=? 102)) eqn:E3.
    { injection H2 as <-. replace c with (97 + (c - 97)) at 1 by lia.
      replace (c - 87) with (10 + (c - 97)) by lia. constructor. lia. }
    simpl in H1. discriminate.
Qed.

Lemma hexdig_val : forall c, is_hexdig c = true -> exists v, hexdigit c v.
Proof.
  intros c H. destruct (hex_to_u8 c) as [v|] eqn:E; [exists v; apply hexdigit_iff; auto|].
  unfold is_hexdig, is_ascii_hexdigit, is_ascii_digit, hex_to_u8, in_range in *.
  repeat dmatch_hyp E; try discriminate; simpl in H; congruence.
Qed.

Lemma hexdigit_range : forall c v, hexdigit c v ->
  v < 16 /\ ((48 <= c <= 57) \/ (65 <= c <= 70) \/ (97 <= c <= 102)).
Proof. intros c v H. inv H; lia. Qed.

Lemma hexdigit_not_ws : forall c v t, hexdigit c v -> not_ws (c :: t).
Proof. intros c v t H. apply hexdigit_range in H. simpl. lia. Qed.

Lemma hexdigit_det : forall c v1 v2, hexdigit c v1 -> hexdigit c v2 -> v1 = v2.
Proof.
  intros c v1 v2 H1 H2. apply hexdigit_iff in H1, H2. destruct H1, H2. congruence.
Qed.

Lemma hex_char_digit : forall d, d < 16 -> hexdigit (hex_char d) d.
Proof.
  intros d H.
  assert (d=0\/d=1\/d=2\/d=3\/d=4\/d=5\/d=6\/d=7\/d=8\/d=9\/d=10\/d=11\/d=12\/d=13\/d=14\/d=15) as X by lia.
  repeat (destruct X as [->|X]); try subst d; unfold hex_char; simpl;
    first [apply (hd_dec 0) | apply (hd_dec 1) | apply (hd_dec 2) | apply (hd_dec 3) | apply (hd_dec 4)
      | apply (hd_dec 5) | apply (hd_dec 6) | apply (hd_dec 7) | apply (hd_dec 8) | apply (hd_dec 9)
      | apply (hd_up 0) | apply (hd_up 1) | apply (hd_up 2) | apply (hd_up 3) | apply (hd_up 4) | apply (hd_up 5)];
    lia.
Qed.

Lemma hex_upper_eq : forall d, d < 16 -> hex_upper d = hex_char d.
Proof.
  intros d H.
  assert (d=0\/d=1\/d=2\/d=3\/d=4\/d=5\/d=6\/d=7\/d=8\/d=9\/d=10\/d=11\/d=12\/d=13\/d=14\/d=15) as X by lia.
  repeat (destruct X as [->|X]); try subst d; reflexivity.
Qed.

Lemma encode_byte_eq : forall b, is_byte b -> encode_byte b = hex_escape b.
Proof.
  intros b H. unfold is_byte in H. unfold encode_byte, hex_escape. rewrite !hex_upper_eq by lia. auto.
Qed.

Lemma encode_bytes_eq : forall bs, Forall is_byte bs ->
  flat_map encode_byte bs = flat_map hex_escape bs.
Proof. induction 1; cbn [flat_map]; auto. rewrite encode_byte_eq, IHForall; auto. Qed.

(** ** Encoder *)

Lemma encode_chars_spec : forall special ao chunk bs s, Forall is_scalar chunk ->
  qp_encoding special ao bs s ->
  qp_encoding special ao (as_bytes chunk ++ bs) (encode_chars special ao chunk ++ s).
Proof.
  intros special ao chunk bs s H Hs. induction H as [|c chunk Hc H IH]; simpl; auto.
  rewrite <- !app_assoc. destruct (qp_is_safe special ao c) eqn:E.
  - apply literal_iff in E. simpl. apply qe_literal; auto.
  - assert (~ literal special ao c) by (rewrite <- literal_iff; congruence).
    rewrite encode_bytes_eq by (apply utf8_char_bytes; auto). apply qe_escaped; auto.
Qed.

Lemma encode_loop_spec : forall special ao fuel bs, Forall is_byte bs -> (length bs <= fuel)%nat ->
  qp_encoding special ao bs (encode_loop fuel special ao bs).
Proof.
  intros special ao. induction fuel as [|fuel IH]; intros bs Hb L.
  - destruct bs; [constructor|simpl in L; lia].
  - cbn [encode_loop]. destruct bs as [|b bs]; [constructor|].
    pose proof (next_chunk_spec (b :: bs)) as N. destruct (next_utf8_chunk (b :: bs)) as [chunk|].
    + destruct N as (Hne & rest & N1 & N2 & N3). rewrite N2. unfold str_len.
      rewrite skipn_app, skipn_all, Nat.sub_diag. simpl skipn. simpl app.
      apply encode_chars_spec; auto. apply IH.
      * rewrite N2 in Hb. apply Forall_app in Hb. tauto.
      * pose proof (f_equal (@length _) N2) as L2. rewrite app_length in L2.
        apply str_len_pos in Hne. unfold str_len in Hne. lia.
    + inversion Hb; subst. rewrite encode_byte_eq by auto. apply qe_invalid; auto.
      apply IH; auto. simpl in L. lia.
Qed.

Theorem encode_spec : forall special ao bs, Forall is_byte bs ->
  qp_encoding special ao bs (encode_internal special ao bs).
Proof. intros. apply encode_loop_spec; auto. Qed.

Lemma utf8_app_nonempty : forall c r, utf8_char c ++ r <> [].
Proof. intros c r. pose proof (utf8_char_nonempty c). destruct (utf8_char c); easy. Qed.

(** the encoding relation is a function *)
Lemma utf8_char_app_inj : forall c1 c2 r1 r2, is_scalar c1 -> is_scalar c2 ->
  utf8_char c1 ++ r1 = utf8_char c2 ++ r2 -> c1 = c2 /\ r1 = r2.
Proof.
  intros c1 c2 r1 r2 H1 H2 E. pose proof (utf8_prefix_char c1 r1 H1) as X.
  pose proof (utf8_prefix_char c2 r2 H2) as Y. rewrite E in X. rewrite X in Y.
  assert (c1 = c2) as ->. { destruct (utf8_prefix r1), (utf8_prefix r2). inv Y. auto. }
  apply app_inv_head in E. auto.
Qed.

Lemma qp_encoding_det : forall special ao bs s1 s2,
  qp_encoding special ao bs s1 -> qp_encoding special ao bs s2 -> s1 = s2.
Proof.
  intros special ao bs s1 s2 H. revert s2. induction H; intros s2 H2.
  - inversion H2; subst; auto.
    all: exfalso; eapply utf8_app_nonempty; eauto.
  - inversion H2; subst.
    + exfalso. eapply utf8_app_nonempty; eauto.
    + match goal with E : utf8_char _ ++ _ = _ |- _ => apply utf8_char_app_inj in E; auto; destruct E; subst end.
      f_equal. auto.
    + match goal with E : utf8_char _ ++ _ = _ |- _ => apply utf8_char_app_inj in E; auto; destruct E; subst end.
      contradiction.
    + exfalso. match goal with N : no_char_at _ |- _ => eapply (N c bs); auto end.
  - inversion H2; subst.
    + exfalso. eapply utf8_app_nonempty; eauto.
    + match goal with E : utf8_char _ ++ _ = _ |- _ => apply utf8_char_app_inj in E; auto; destruct E; subst end.
      contradiction.
    + match goal with E : utf8_char _ ++ _ = _ |- _ => apply utf8_char_app_inj in E; auto; destruct E; subst end.
      f_equal. auto.
    + exfalso. match goal with N : no_char_at _ |- _ => eapply (N c bs); auto end.
  - inversion H2; subst.
    + exfalso. match goal with E : utf8_char ?c ++ ?r = _ |- _ => apply (H c r); auto end.
    + exfalso. match goal with E : utf8_char ?c ++ ?r = _ |- _ => apply (H c r); auto end.
    + f_equal. auto.
Qed.
