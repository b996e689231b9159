(** Proofs about base64. *)

From Coq Require Import String List.
From Verif Require Import Lib Utf8 Canon Header Parse QP Base64 TagList SpecText.

Lemma b64_char_eq : forall v, v < 64 -> b64_char v = b64_digit v.
Proof.
  intros v H.
  assert (forallb (fun n => b64_char (N.of_nat n) =? b64_digit (N.of_nat n)) (seq 0 64) = true) as X
    by (vm_compute; reflexivity).
  rewrite forallb_forall in X. specialize (X (N.to_nat v)). rewrite N2Nat.id in X.
  apply N.eqb_eq, X. apply in_seq. lia.
Qed.

Lemma b64_val_char : forall v, v < 64 -> b64_val (b64_char v) = Some v.
Proof.
  intros v H. unfold b64_char, b64_val, in_range.
  destruct (v <? 26) eqn:E1. { replace ((65 <=? 65 + v) && (65 + v <=? 90)) with true by lia. f_equal. lia. }
  destruct (v <? 52) eqn:E2.
  { replace ((65 <=? 71 + v) && (71 + v <=? 90)) with false by lia.
    replace ((97 <=? 71 + v) && (71 + v <=? 122)) with true by lia. f_equal. lia. }
  destruct (v <? 62) eqn:E3.
  { replace ((65 <=? v - 4) && (v - 4 <=? 90)) with false by lia.
    replace ((97 <=? v - 4) && (v - 4 <=? 122)) with false by lia.
    replace ((48 <=? v - 4) && (v - 4 <=? 57)) with true by lia. f_equal. lia. }
  destruct (v =? 62) eqn:E4; [assert (v = 62) as -> by lia|assert (v = 63) as -> by lia]; reflexivity.
Qed.

Lemma b64_val_some : forall c v, b64_val c = Some v -> v < 64 /\ c = b64_char v.
Proof.
  intros c v. unfold b64_val, in_range, b64_char. intros H.
  repeat dmatch_hyp H; try discriminate; injection H as <-; (split; [lia|]).
  - replace (c - 65 <? 26) with true by lia. lia.
  - replace (c - 71 <? 26) with false by lia. replace (c - 71 <? 52) with true by lia. lia.
  - replace (c + 4 <? 26) with false by lia. replace (c + 4 <? 52) with false by lia.
    replace (c + 4 <? 62) with true by lia. lia.
  - replace (62 <? 26) with false by lia. replace (62 <? 52) with false by lia.
    replace (62 <? 62) with false by lia. replace (62 =? 62) with true by lia. lia.
  - replace (63 <? 26) with false by lia. replace (63 <? 52) with false by lia.
    replace (63 <? 62) with false by lia. replace (63 =? 62) with false by lia. lia.
Qed.

Lemma b64_val_pad : b64_val 61 = None.
Proof. reflexivity. Qed.

Lemma b64_char_not_pad : forall v, v < 64 -> b64_char v <> 61.
Proof. intros v H E. pose proof (b64_val_char v H) as X. rewrite E in X. discriminate. Qed.

Lemma list_ind3 : forall (P : list byte -> Prop),
  P [] -> (forall a, P [a]) -> (forall a b, P [a; b]) ->
  (forall a b c l, P l -> P (a :: b :: c :: l)) -> forall l, P l.
Proof.
  intros P H0 H1 H2 H3.
  assert (forall n l, (length l <= n)%nat -> P l) as X; [|intros l; apply (X (length l)); auto].
  induction n as [|n IH]; intros l L.
  - destruct l; [auto|simpl in L; lia].
  - destruct l as [|a [|b [|c l]]]; auto. apply H3. apply IH. simpl in L. lia.
Qed.

Theorem encode_base64_spec : forall bs, Forall is_byte bs -> base64 bs (encode_base64 bs).
Proof.
  unfold is_byte. induction bs using list_ind3; intros H; cbn [encode_base64].
  - constructor.
  - inv H. rewrite !b64_char_eq by lia.
    replace (a / 4) with (a * 65536 / 2^18) by (change (2^18) with 262144; lia).
    replace (a mod 4 * 16) with (a * 65536 / 2^12 mod 64) by (change (2^12) with 4096; lia).
    apply b64_one.
  - inv H. inv H3. rewrite !b64_char_eq by lia.
    replace (a / 4) with ((a * 65536 + b * 256) / 2^18) by (change (2^18) with 262144; lia).
    replace (a mod 4 * 16 + b / 16) with ((a * 65536 + b * 256) / 2^12 mod 64) by (change (2^12) with 4096; lia).
    replace (b mod 16 * 4) with ((a * 65536 + b * 256) / 2^6 mod 64) by (change (2^6) with 64; lia).
    apply b64_two.
  - inv H. inv H3. inv H4. rewrite !b64_char_eq by lia.
    replace (a / 4) with ((a * 65536 + b * 256 + c) / 2^18) by (change (2^18) with 262144; lia).
    replace (a mod 4 * 16 + b / 16) with ((a * 65536 + b * 256 + c) / 2^12 mod 64) by (change (2^12) with 4096; lia).
    replace (b mod 16 * 4 + c / 64) with ((a * 65536 + b * 256 + c) / 2^6 mod 64) by (change (2^6) with 64; lia).
    replace (c mod 64) with ((a * 65536 + b * 256 + c) mod 64) by lia.
    apply b64_three; auto.
Qed.

Lemma base64_det : forall bs s1 s2, base64 bs s1 -> base64 bs s2 -> s1 = s2.
Proof.
  intros bs s1 s2 H. revert s2. induction H; intros s2 H2; inversion H2; subst; auto.
  unfold n, n0. do 4 f_equal. auto.
Qed.

Lemma decode_encode_base64 : forall bs, Forall is_byte bs -> decode_base64 (encode_base64 bs) = Some bs.
Proof.
  unfold is_byte. induction bs using list_ind3; intros H; cbn [encode_base64].
  - auto.
  - inv H. cbn [decode_base64]. rewrite !b64_val_char by lia. rewrite ?N.eqb_refl.
    replace (a mod 4 * 16 mod 16 =? 0) with true by lia. do 2 f_equal. lia.
  - inv H. inv H3. cbn [decode_base64]. rewrite !b64_val_char by lia.
    replace (b64_char (b mod 16 * 4) =? 61) with false.
    2:{ symmetry. apply N.eqb_neq. apply b64_char_not_pad. lia. }
    rewrite ?N.eqb_refl. replace (b mod 16 * 4 mod 4 =? 0) with true by lia.
    do 2 f_equal; [lia|]. f_equal. lia.
  - inv H. inv H3. inv H4. specialize (IHbs H5).
    assert (decode_base64 (b64_char (a / 4) :: b64_char (a mod 4 * 16 + b / 16)
              :: b64_char (b mod 16 * 4 + c / 64) :: b64_char (c mod 64) :: encode_base64 bs)
      = match decode_base64 (encode_base64 bs) with
        | Some bs0 => Some (a :: b :: c :: bs0) | None => None end) as ->.
    { destruct (encode_base64 bs) as [|d s].
      - cbn [decode_base64]. rewrite !b64_val_char by lia.
        replace (b64_char (c mod 64) =? 61) with false.
        2:{ symmetry. apply N.eqb_neq. apply b64_char_not_pad. lia. }
        f_equal. f_equal; [lia|]. f_equal; [lia|]. f_equal. lia.
      - cbn [decode_base64]. rewrite !b64_val_char by lia.
        match goal with |- context [match ?x with Some _ => _ | None => None end] => destruct x end; auto.
        f_equal. f_equal; [lia|]. f_equal; [lia|]. f_equal. lia. }
    rewrite IHbs. auto.
Qed.

Lemma list_ind4 : forall (P : list N -> Prop),
  P [] -> (forall a, P [a]) -> (forall a b, P [a; b]) -> (forall a b c, P [a; b; c]) ->
  (forall a b c d, P [a; b; c; d]) ->
  (forall a b c d e l, P (e :: l) -> P (a :: b :: c :: d :: e :: l)) -> forall l, P l.
Proof.
  intros P H0 H1 H2 H3 H4 H5.
  assert (forall n l, (length l <= n)%nat -> P l) as X; [|intros l; apply (X (length l)); auto].
  induction n as [|n IH]; intros l L.
  - destruct l; [auto|simpl in L; lia].
  - destruct l as [|a [|b [|c [|d [|e l]]]]]; auto. apply H5. apply IH. simpl in *. lia.
Qed.

Lemma decode_base64_sound : forall s bs, decode_base64 s = Some bs ->
  Forall is_byte bs /\ encode_base64 bs = s.
Proof.
  unfold is_byte. induction s using list_ind4; intros bs H.
  - inv H. auto.
  - discriminate.
  - discriminate.
  - discriminate.
  - cbn [decode_base64] in H.
    destruct (b64_val a) as [v1|] eqn:E1; [|discriminate]. destruct (b64_val b) as [v2|] eqn:E2; [|discriminate].
    apply b64_val_some in E1, E2. destruct E1 as [L1 ->], E2 as [L2 ->].
    destruct (d =? 61) eqn:E4.
    + apply N.eqb_eq in E4. subst d. destruct (c =? 61) eqn:E3.
      * apply N.eqb_eq in E3. subst c. destruct (v2 mod 16 =? 0) eqn:E5; [|discriminate].
        injection H as <-. split; [repeat constructor; lia|]. cbn [encode_base64].
        f_equal; [f_equal; lia|]. f_equal. f_equal. lia.
      * destruct (b64_val c) as [v3|] eqn:E3'; [|discriminate]. apply b64_val_some in E3'. destruct E3' as [L3 ->].
        destruct (v3 mod 4 =? 0) eqn:E5; [|discriminate]. injection H as <-.
        split; [repeat constructor; lia|]. cbn [encode_base64].
        f_equal; [f_equal; lia|]. f_equal; [f_equal; lia|]. f_equal. f_equal. lia.
    + destruct (b64_val c) as [v3|] eqn:E3; [|discriminate]. destruct (b64_val d) as [v4|] eqn:E4'; [|discriminate].
      apply b64_val_some in E3, E4'. destruct E3 as [L3 ->], E4' as [L4 ->]. injection H as <-.
      split; [repeat constructor; lia|]. cbn [encode_base64].
      f_equal; [f_equal; lia|]. f_equal; [f_equal; lia|]. f_equal; [f_equal; lia|]. f_equal. f_equal. lia.
  - change (decode_base64 (a :: b :: c :: d :: e :: s)) with
      (match b64_val a, b64_val b, b64_val c, b64_val d with
      | Some v1, Some v2, Some v3, Some v4 =>
          match decode_base64 (e :: s) with
          | Some bs =>
              Some (v1 * 4 + v2 / 16 :: (v2 mod 16) * 16 + v3 / 4 :: (v3 mod 4) * 64 + v4 :: bs)
          | None => None
          end
      | _, _, _, _ => None
      end) in H.
    destruct (b64_val a) as [v1|] eqn:E1; [|discriminate]. destruct (b64_val b) as [v2|] eqn:E2; [|discriminate].
    destruct (b64_val c) as [v3|] eqn:E3; [|discriminate]. destruct (b64_val d) as [v4|] eqn:E4; [|discriminate].
    destruct (decode_base64 (e :: s)) as [bs'|]; [|discriminate]. injection H as <-.
    destruct (IHs bs' eq_refl) as [I1 I2].
    apply b64_val_some in E1, E2, E3, E4. destruct E1 as [L1 ->], E2 as [L2 ->], E3 as [L3 ->], E4 as [L4 ->].
    split; [repeat constructor; auto; lia|]. cbn [encode_base64]. rewrite I2.
    f_equal; [f_equal; lia|]. f_equal; [f_equal; lia|]. f_equal; [f_equal; lia|]. f_equal. f_equal. lia.
Qed.

Theorem decode_base64_iff : forall s bs,
  decode_base64 s = Some bs <-> Forall is_byte bs /\ base64 bs s.
Proof.
  intros s bs. split.
  - intros H. apply decode_base64_sound in H. destruct H as [H1 <-]. split; auto. apply encode_base64_spec; auto.
  - intros [H1 H2]. rewrite (base64_det bs s (encode_base64 bs)); auto using encode_base64_spec.
    apply decode_encode_base64; auto.
Qed.

(** characters of encodings *)
Lemma b64_char_range : forall v, v < 64 ->
  let c := b64_char v in (65 <= c <= 90) \/ (97 <= c <= 122) \/ (47 <= c <= 57) \/ c = 43.
Proof.
  intros v H. unfold b64_char. destruct (v <? 26) eqn:E1; [lia|]. destruct (v <? 52) eqn:E2; [lia|].
  destruct (v <? 62) eqn:E3; [lia|]. destruct (v =? 62) eqn:E4; lia.
Qed.

Lemma encode_base64_chars : forall bs, Forall is_byte bs -> forall c, In c (encode_base64 bs) ->
  (65 <= c <= 90) \/ (97 <= c <= 122) \/ (47 <= c <= 57) \/ c = 43 \/ c = 61.
Proof.
  unfold is_byte. induction bs using list_ind3; intros H x Hx; cbn [encode_base64 In] in Hx.
  - destruct Hx.
  - inv H. destruct Hx as [<-|[<-|[<-|[<-|[]]]]]; try lia.
    + pose proof (b64_char_range (a / 4)). cbn zeta in *. lia.
    + pose proof (b64_char_range (a mod 4 * 16)). cbn zeta in *. lia.
  - inv H. inv H3. destruct Hx as [<-|[<-|[<-|[<-|[]]]]]; try lia.
    + pose proof (b64_char_range (a / 4)). cbn zeta in *. lia.
    + pose proof (b64_char_range (a mod 4 * 16 + b / 16)). cbn zeta in *. lia.
    + pose proof (b64_char_range (b mod 16 * 4)). cbn zeta in *. lia.
  - inv H. inv H3. inv H4. destruct Hx as [<-|[<-|[<-|[<-|Hx]]]]; try lia.
    + pose proof (b64_char_range (a / 4)). cbn zeta in *. lia.
    + pose proof (b64_char_range (a mod 4 * 16 + b / 16)). cbn zeta in *. lia.
    + pose proof (b64_char_range (b mod 16 * 4 + c / 64)). cbn zeta in *. lia.
    + pose proof (b64_char_range (c mod 64)). cbn zeta in *. lia.
    + auto.
Qed.

(** folding *)
Definition blank (c : char) : Prop := c = 32 \/ c = 9 \/ c = 13 \/ c = 10.

Lemma is_fws_char_iff : forall c, is_fws_char c = true <-> blank c.
Proof. intros. unfold is_fws_char, blank, SP, TAB, CR, LF. lia. Qed.

Lemma filter_blank_inserted : forall s t, inserted (Forall blank) s t ->
  (forall c, In c s -> ~ blank c) -> filter (fun c => negb (is_fws_char c)) t = s.
Proof.
  assert (forall f, Forall blank f -> filter (fun c => negb (is_fws_char c)) f = []) as F.
  { induction 1; simpl; auto. apply is_fws_char_iff in H. rewrite H. auto. }
  intros s t H. induction H; intros Hn; auto.
  rewrite filter_app. rewrite F by auto. simpl.
  replace (is_fws_char c) with false. { simpl. rewrite IHinserted; auto. intros x Hx. apply Hn. simpl. auto. }
  destruct (is_fws_char c) eqn:E; auto. apply is_fws_char_iff in E. destruct (Hn c); simpl; auto.
Qed.

Lemma filter_inserted : forall t, inserted (Forall blank) (filter (fun c => negb (is_fws_char c)) t) t.
Proof.
  induction t as [|c t IH]; simpl.
  - constructor. constructor.
  - destruct (is_fws_char c) eqn:E; simpl.
    + apply is_fws_char_iff in E. inv IH.
      * constructor. constructor; auto.
      * change (c :: f ++ c0 :: t0) with ((c :: f) ++ c0 :: t0). constructor; auto.
    + apply (ins_cons _ [] c); auto.
Qed.

Theorem parse_base64_iff : forall t bs,
  parse_base64_value t = Some bs <->
  Forall is_byte bs /\ exists s, base64 bs s /\ inserted (Forall blank) s t.
Proof.
  intros t bs. unfold parse_base64_value. rewrite decode_base64_iff. split.
  - intros [H1 H2]. split; auto. exists (filter (fun c => negb (is_fws_char c)) t). split; auto.
    apply filter_inserted.
  - intros (H1 & s & H2 & H3). split; auto. rewrite (filter_blank_inserted s t); auto.
    intros c Hc. rewrite (base64_det _ _ _ H2 (encode_base64_spec bs H1)) in Hc.
    apply encode_base64_chars in Hc; auto. unfold blank. lia.
Qed.
