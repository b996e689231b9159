(** The formatting functions lay out the pieces of the specification. *)

From Coq Require Import String List.
From Verif Require Import Base Utf8 Canon BodyHash Header Parse QP Base64 Domain Signature Format Lib
  SpecText SpecCanon SpecDomain SpecSig SpecFormat SpecHeader HeaderCanonProofs HeaderProofs Utf8Proofs QPProofs Base64Proofs DomainProofs SigProofs.
Import ListNotations.
Open Scope N_scope.

Lemma layout_app : forall w ind ps i qs,
  layout w ind i (ps ++ qs) =
  let '(t, j) := layout w ind i ps in let '(t', k) := layout w ind j qs in (t ++ t', k).
Proof.
  induction ps as [|p ps IH]; intros i qs.
  - simpl. destruct (layout w ind i qs); reflexivity.
  - simpl. destruct (attach w ind i p) as [t i1]. rewrite IH.
    destruct (layout w ind i1 ps) as [t1 i2]. destruct (layout w ind i2 qs) as [t2 i3].
    rewrite app_assoc. reflexivity.
Qed.

Lemma layout_fit : forall w ind s i, (i + length s <= w)%nat ->
  layout w ind i (letters s) = (s, (i + length s)%nat).
Proof.
  induction s as [|c s IH]; intros i H; simpl in *.
  - rewrite Nat.add_0_r. reflexivity.
  - unfold attach. cbn [p_joint p_text p_extra inner length]. replace (Nat.leb (i + 0 + 1 + 0) w) with true.
    2:{ symmetry. apply Nat.leb_le. lia. }
    replace (i + 0 + 1)%nat with (S i) by lia. fold (letters s). rewrite IH by lia. simpl.
    f_equal. lia.
Qed.

Lemma layout_break : forall w ind c s i, (w <= i)%nat ->
  layout w ind i (letters (c :: s)) =
  let '(t, j) := layout w ind (length ind + 1) (letters s) in ([13; 10] ++ ind ++ [c] ++ t, j).
Proof.
  intros w ind c s i H. simpl. unfold attach. cbn [p_joint p_text p_extra inner length].
  replace (Nat.leb (i + 0 + 1 + 0) w) with false. 2:{ symmetry. apply Nat.leb_gt. lia. }
  fold (letters s). destruct (layout w ind (length ind + 1) (letters s)) as [t j].
  simpl. rewrite <- app_assoc. reflexivity.
Qed.

Section Chunks.
Variable w : nat.
Variable ind : str.
Hypothesis Hind : str_len ind = length ind.

Lemma chunks_rest : forall fuel s out i, (length s <= fuel)%nat -> (s <> [] -> (w <= i)%nat) ->
  format_chunks_rest fuel (Nat.max (w - length ind) 1) ind (out, i) s =
  let '(t, j) := layout w ind i (letters s) in (out ++ t, j).
Proof.
  induction fuel as [|fuel IH]; intros s out i Hf Hi.
  - destruct s; [|simpl in Hf; lia]. simpl. rewrite app_nil_r. reflexivity.
  - destruct s as [|c s].
    + simpl. rewrite app_nil_r. reflexivity.
    + cbn [format_chunks_rest is_nil]. set (cw := Nat.max (w - length ind) 1).
      assert (exists n, cw = S n) as (n & En) by (exists (cw - 1)%nat; subst cw; lia).
      rewrite Hind. rewrite IH.
      * rewrite layout_break by (apply Hi; discriminate).
        rewrite En. cbn [firstn skipn].
        rewrite <- (firstn_skipn n s) at 3. unfold letters at 2. rewrite map_app.
        fold (letters (firstn n s)) (letters (skipn n s)). rewrite layout_app.
        destruct n as [|n].
        -- cbn [firstn skipn length]. change (letters []) with (@nil Piece). cbn [layout]. rewrite (Nat.add_comm 1).
           destruct (layout w ind (length ind + 1) (letters s)) as [t j].
           unfold CRLF, CR, LF. cbn [app]. rewrite <- !app_assoc. cbn [app]. rewrite <- ?app_assoc. reflexivity.
        -- rewrite (layout_fit w ind (firstn (S n) s)).
           2:{ rewrite firstn_length. subst cw. lia. }
           cbn [length].
           replace (length ind + 1 + length (firstn (S n) s))%nat with (S (length (firstn (S n) s)) + length ind)%nat by lia.
           destruct (layout w ind (S (length (firstn (S n) s)) + length ind) (letters (skipn (S n) s))) as [t j].
           unfold CRLF, CR, LF. cbn [app]. rewrite <- !app_assoc. cbn [app]. rewrite <- ?app_assoc. reflexivity.
      * rewrite skipn_length, En. simpl in *. lia.
      * intros Hs. rewrite firstn_length. rewrite <- length_zero_iff_nil in Hs. rewrite skipn_length in Hs.
        fold cw in Hs. rewrite Nat.min_l by lia. subst cw. lia.
Qed.

Lemma chunks_layout : forall fmt out i s, f_width fmt = w -> f_indent fmt = ind ->
  format_chunks_into_string (out, i) fmt s =
  let '(t, j) := layout w ind i (letters s) in (out ++ t, j).
Proof.
  intros fmt out i s Hw Hi. unfold format_chunks_into_string. rewrite Hw, Hi, Hind.
  set (k := Nat.min (w - i) (length s)). rewrite chunks_rest.
  - replace (letters s) with (letters (firstn k s) ++ letters (skipn k s)).
    2:{ unfold letters. rewrite <- map_app, firstn_skipn. reflexivity. }
    rewrite layout_app.
    destruct (Nat.le_gt_cases w i) as [L|L].
    + assert (k = 0)%nat as -> by (subst k; lia). cbn [firstn skipn length]. change (letters []) with (@nil Piece). cbn [layout].
      rewrite Nat.add_0_r. destruct (layout w ind i (letters s)) as [t j]. rewrite app_nil_r. reflexivity.
    + rewrite (layout_fit w ind (firstn k s)). 2:{ rewrite firstn_length. subst k. lia. }
      destruct (layout w ind (i + length (firstn k s)) (letters (skipn k s))) as [t j].
      rewrite app_assoc. reflexivity.
  - lia.
  - intros Hs. rewrite <- length_zero_iff_nil in Hs. rewrite skipn_length in Hs.
    rewrite firstn_length. subst k. lia.
Qed.
End Chunks.

(** ** Single tags *)

Definition puts (w : nat) (ind : str) (cur : list N * nat) (ps : list Piece) : list N * nat :=
  let '(t, j) := layout w ind (snd cur) ps in (fst cur ++ t, j).

Lemma puts_app : forall w ind cur ps qs, puts w ind cur (ps ++ qs) = puts w ind (puts w ind cur ps) qs.
Proof.
  intros w ind [out i] ps qs. unfold puts. cbn [fst snd]. rewrite layout_app.
  destruct (layout w ind i ps) as [t j]. cbn [fst snd]. destruct (layout w ind j qs) as [t' k].
  rewrite app_assoc. reflexivity.
Qed.

Lemma puts_cons : forall w ind cur p qs, puts w ind cur (p :: qs) = puts w ind (puts w ind cur [p]) qs.
Proof. intros. rewrite <- puts_app. reflexivity. Qed.

Lemma puts_nil : forall w ind cur, puts w ind cur [] = cur.
Proof. intros w ind [out i]. unfold puts. simpl. rewrite app_nil_r. reflexivity. Qed.

Lemma puts_letters : forall w ind fmt cur s, str_len ind = length ind -> f_width fmt = w -> f_indent fmt = ind ->
  format_chunks_into_string cur fmt s = puts w ind cur (letters s).
Proof. intros w ind fmt [out i] s H H1 H2. apply chunks_layout; assumption. Qed.

Definition stop_of (last : bool) : str := if last then [] else [59].

Lemma stop_len : forall last, length (stop_of last) = if last then 0%nat else 1%nat.
Proof. destruct last; reflexivity. Qed.

Section Fmt.
Variable w : nat.
Variable ind : str.
Hypothesis Hind : str_len ind = length ind.

Ltac leb_case :=
  match goal with |- context [Nat.leb ?a ?b] => let E := fresh "E" in destruct (Nat.leb a b) eqn:E end.

Lemma leb_same : forall a b c, a = b -> Nat.leb a c = Nat.leb b c.
Proof. intros. subst. reflexivity. Qed.

Lemma puts_start : forall out i t e len, (len = length t + e)%nat ->
  puts w ind (out, i) [mkPiece Start t e] =
  let '(o, j) := advance_i_initial (out, i) len (mkFmt w ind false false) in (o ++ t, (j - e)%nat).
Proof.
  intros out i t e len ->. unfold puts, layout, attach, advance_i_initial. cbn [fst snd p_joint p_text p_extra f_width f_indent length].
  rewrite (leb_same (i + (length t + e) + 1) (i + 1 + length t + e)) by lia.
  leb_case; rewrite app_nil_r; unfold SP, CRLF, CR, LF; cbn [app]; rewrite <- !app_assoc; cbn [app]; rewrite ?Hind; f_equal; try lia.
Qed.

Lemma initial_fmt : forall cur len fmt, f_width fmt = w -> f_indent fmt = ind ->
  advance_i_initial cur len fmt = advance_i_initial cur len (mkFmt w ind false false).
Proof. intros [out i] len fmt H1 H2. unfold advance_i_initial. rewrite H1, H2. reflexivity. Qed.

Lemma puts_glued : forall out i t, puts w ind (out, i) [glued t] = (out ++ t, (i + length t)%nat).
Proof. intros. unfold puts, layout, attach. cbn. rewrite app_nil_r. f_equal. lia. Qed.

Lemma puts_inner : forall out i t, puts w ind (out, i) [inner t] =
  if Nat.leb (i + length t) w then (out ++ t, (i + length t)%nat)
  else (out ++ [13; 10] ++ ind ++ t, (length ind + length t)%nat).
Proof.
  intros. unfold puts, layout, attach. cbn [fst snd p_joint p_text p_extra inner length].
  rewrite (leb_same (i + 0 + length t + 0) (i + length t)) by lia.
  leb_case; cbn [app]; rewrite app_nil_r; f_equal; lia.
Qed.

Variable fmt : Fmt.
Hypothesis Hw : f_width fmt = w.
Hypothesis Hi : f_indent fmt = ind.

Lemma tag_puts : forall out i name value, str_len name = length name ->
  format_tag (out, i) fmt name value = puts w ind (out, i) [start (name ++ [61] ++ value ++ stop_of (f_last fmt))].
Proof.
  intros out i name value Hn. unfold format_tag, start. rewrite (initial_fmt _ _ _ Hw Hi).
  rewrite puts_start with (len := (str_len name + length value + (if f_last fmt then 1 else 2))%nat).
  - destruct (advance_i_initial _ _ _) as [o j]. unfold stop_of. rewrite Nat.sub_0_r. reflexivity.
  - rewrite !app_length, stop_len, Hn. cbn [length]. destruct (f_last fmt); lia.
Qed.

Lemma names_puts : forall names out i, names <> [] ->
  (let '(o, j) := format_names (out, S i) fmt names in (o ++ stop_of (f_last fmt), j)) =
  puts w ind (out ++ [58], S i) (map inner (with_colons (stop_of (f_last fmt)) names)).
Proof.
  induction names as [|n names IH]; intros out i Hne; [congruence|].
  cbn [format_names]. unfold advance_i. rewrite Hw, Hi, Hind.
  destruct names as [|n' names].
  - cbn [with_colons map is_nil andb]. rewrite puts_inner, app_length, stop_len.
    cbn [format_names].
    leb_case; rewrite <- !app_assoc; unfold CRLF, CR, LF; cbn [app]; f_equal; rewrite <- ?app_assoc; try reflexivity.
  - cbn [is_nil andb].
    replace (map inner (with_colons (stop_of (f_last fmt)) (n :: n' :: names)))
      with (inner (n ++ [58]) :: map inner (with_colons (stop_of (f_last fmt)) (n' :: names))) by reflexivity.
    rewrite puts_cons, puts_inner, app_length. cbn [length].
    leb_case.
    + replace (S i + (length n + 1))%nat with (S (i + length n + 1)) by lia.
      rewrite (IH ((out ++ [58]) ++ n) (i + length n + 1)%nat) by discriminate.
      rewrite <- !app_assoc. reflexivity.
    + replace (length ind + (length n + 1))%nat with (S (length ind + length n)) by lia.
      rewrite IH by discriminate.
      unfold CRLF, CR, LF. rewrite <- !app_assoc. cbn [app]. rewrite <- ?app_assoc. reflexivity.
Qed.

Lemma tag_h_puts : forall out i names, names <> [] -> exists t ts,
  with_colons (stop_of (f_last fmt)) names = t :: ts
  /\ format_tag_h (out, i) fmt names = Val (puts w ind (out, i) (start (lit "h=" ++ t) :: map inner ts)).
Proof.
  intros out i [|n names] Hne; [congruence|].
  cbn [format_tag_h]. rewrite (initial_fmt _ _ _ Hw Hi).
  destruct names as [|n' names].
  - exists (n ++ stop_of (f_last fmt)), []. split; [reflexivity|]. cbn [is_nil andb map].
    unfold start. rewrite puts_start with (len := (length n + (if f_last fmt then 2 else 3))%nat).
    + destruct (advance_i_initial _ _ _) as [o j]. cbn [format_names]. unfold stop_of. rewrite Nat.sub_0_r.
      rewrite <- !app_assoc. reflexivity.
    + rewrite !app_length, stop_len. cbn [lit length]. destruct (f_last fmt); lia.
  - exists (n ++ [58]), (with_colons (stop_of (f_last fmt)) (n' :: names)). split; [reflexivity|].
    cbn [is_nil andb]. rewrite puts_cons. unfold start.
    rewrite puts_start with (len := (length n + 3)%nat).
    2:{ rewrite !app_length. cbn [lit length]. lia. }
    destruct (advance_i_initial (out, i) (length n + 3) (mkFmt w ind false false)) as [o j] eqn:E.
    assert (exists k, j = S k) as (k & ->).
    { unfold advance_i_initial in E. dmatch_hyp E; injection E as _ E'; exists (Nat.pred j); cbn [f_width f_indent] in *; lia. }
    pose proof (names_puts (n' :: names) (o ++ lit "h=" ++ n) k ltac:(discriminate)) as X.
    destruct (format_names (o ++ lit "h=" ++ n, S k) fmt (n' :: names)) as [o' j'].
    fold (stop_of (f_last fmt)). f_equal. etransitivity; [exact X|]. f_equal. rewrite <- !app_assoc. reflexivity.
Qed.

Lemma initial_pos : forall cur len, (0 < len)%nat ->
  exists o j, advance_i_initial cur len (mkFmt w ind false false) = (o, S j).
Proof.
  intros [out i] len H. unfold advance_i_initial. cbn [f_width f_indent].
  leb_case; [exists (out ++ [SP]), (i + len)%nat|exists (out ++ CRLF ++ ind), (str_len ind + len - 1)%nat]; f_equal; lia.
Qed.

Lemma tag_bh_puts : forall out i bh,
  format_tag_bh (out, i) fmt bh = puts w ind (out, i)
    (mkPiece Start (lit "bh=") 1 :: letters (encode_base64 bh) ++ [glued (stop_of (f_last fmt))]).
Proof.
  intros out i bh. unfold format_tag_bh. rewrite (initial_fmt _ _ _ Hw Hi).
  rewrite puts_cons, puts_start with (len := 4%nat) by reflexivity.
  destruct (advance_i_initial (out, i) 4 (mkFmt w ind false false)) as [o j].
  rewrite (puts_letters w ind) by assumption. rewrite puts_app.
  destruct (puts w ind (o ++ lit "bh=", (j - 1)%nat) (letters (encode_base64 bh))) as [o' j'].
  rewrite puts_glued, stop_len. unfold stop_of. destruct (f_last fmt); [rewrite app_nil_r, Nat.add_0_r|]; reflexivity.
Qed.

Lemma field_value_encoding : forall ascii v, Forall is_byte v ->
  qp_encoding (Some 124) ascii v (format_field_value ascii v).
Proof. intros [] v H; apply encode_spec; assumption. Qed.

Lemma copied_puts : forall fs out i, Forall (fun f => Forall is_byte (snd f)) fs ->
  exists ps, copied_pieces (f_ascii fmt) fs ps /\ format_copied (out, i) fmt fs = puts w ind (out, i) ps.
Proof.
  induction fs as [|[n v] fs IH]; intros out i H.
  - exists []. split; [constructor|]. rewrite puts_nil. reflexivity.
  - pose proof (Forall_inv H) as Hv. pose proof (Forall_inv_tail H) as Hfs. cbn [snd] in Hv. cbn [format_copied].
    rewrite Hw, Hi.
    set (q := format_field_value (f_ascii fmt) v).
    destruct (puts w ind (out, i) (inner [124] :: inner (n ++ [58]) :: letters q)) as [o1 i1] eqn:E1.
    destruct (IH o1 i1 Hfs) as (ps & Hps & EQ). exists (inner [124] :: inner (n ++ [58]) :: letters q ++ ps).
    split; [apply cp_cons; [apply field_value_encoding; assumption|assumption]|].
    change (inner [124] :: inner (n ++ [58]) :: letters q ++ ps) with ((inner [124] :: inner (n ++ [58]) :: letters q) ++ ps).
    rewrite puts_app, E1, <- EQ. clear EQ IH Hps ps. revert E1.
    rewrite puts_cons, puts_inner. rewrite puts_cons.
    cbn [length]. replace (Nat.leb (i + 1) w) with (negb (Nat.leb w i)).
    2:{ destruct (Nat.leb_spec w i), (Nat.leb_spec (i + 1) w); cbn [negb]; lia. }
    destruct (Nat.leb w i); cbn [negb]; rewrite puts_inner, app_length; cbn [length]; intros E1;
      rewrite (puts_letters w ind) by auto; rewrite <- E1; f_equal; f_equal;
      rewrite Hind; unfold CRLF, CR, LF; leb_case; repeat (rewrite <- ?app_assoc; cbn [app]); reflexivity.
Qed.

Lemma tag_z_puts : forall out i n v fs, Forall (fun f => Forall is_byte (snd f)) ((n, v) :: fs) ->
  exists q ps, qp_encoding (Some 124) (f_ascii fmt) v q /\ copied_pieces (f_ascii fmt) fs ps
  /\ format_tag_z (out, i) fmt ((n, v) :: fs) = Val (puts w ind (out, i)
      (start (lit "z=" ++ n ++ [58]) :: letters q ++ ps ++ [glued (stop_of (f_last fmt))])).
Proof.
  intros out i n v fs H. pose proof (Forall_inv H) as Hv. pose proof (Forall_inv_tail H) as Hfs. cbn [snd] in Hv.
  cbn [format_tag_z]. rewrite (initial_fmt _ _ fmt) by auto.
  set (q := format_field_value (f_ascii fmt) v).
  destruct (advance_i_initial (out, i) (length n + 3) (mkFmt w ind false false)) as [o j] eqn:E.
  rewrite (puts_letters w ind) by auto.
  destruct (puts w ind (o ++ lit "z=" ++ n ++ [58], j) (letters q)) as [o1 j1] eqn:E1.
  destruct (copied_puts fs o1 j1 Hfs) as (ps & Hps & EQ).
  rewrite EQ. exists q, ps. split; [apply field_value_encoding; assumption|]. split; [assumption|]. f_equal.
  rewrite puts_cons. unfold start. rewrite puts_start with (len := (length n + 3)%nat).
  2:{ rewrite !app_length. cbn [lit length]. lia. }
  rewrite E, Nat.sub_0_r, puts_app, E1, puts_app.
  destruct (puts w ind (o1, j1) ps) as [o2 j2]. rewrite puts_glued, stop_len. unfold stop_of.
  destruct (f_last fmt); [rewrite app_nil_r, Nat.add_0_r|]; reflexivity.
Qed.
End Fmt.

(** decimal digits *)
Lemma decimal_snoc : forall t c, decimal (t ++ [c]) = decimal t * 10 + (c - 48).
Proof. intros. unfold decimal. rewrite fold_left_app. reflexivity. Qed.

Lemma dec_loop_spec : forall fuel n acc, n < 2 ^ N.of_nat fuel -> exists t,
  dec_loop fuel n acc = t ++ acc /\ (fuel <> 0%nat -> decimal_text t n).
Proof.
  induction fuel as [|fuel IH]; intros n acc H.
  - exists []. split; [reflexivity|congruence].
  - cbn [dec_loop]. destruct (N.eqb_spec (n / 10) 0) as [Z|Z].
    + exists [48 + n mod 10]. split; [reflexivity|]. intros _. split; [discriminate|]. split.
      * constructor; [lia|constructor].
      * split; [unfold decimal; cbn [fold_left]; lia|].
        destruct (N.eq_dec (n mod 10) 0) as [E|E]; [left; rewrite E; reflexivity|right; cbn [hd]; lia].
    + destruct (IH (n / 10) ((48 + n mod 10) :: acc)) as (t & E & Ht).
      { rewrite Nat2N.inj_succ, N.pow_succ_r' in H. lia. }
      destruct fuel as [|fuel].
      { change (2 ^ N.of_nat 1) with 2 in H. lia. }
      destruct Ht as (T1 & T2 & T3 & T4); [discriminate|].
      exists (t ++ [48 + n mod 10]). rewrite E, <- app_assoc. split; [reflexivity|]. intros _.
      split; [intros X; apply app_eq_nil in X as [_ X]; discriminate|]. split; [apply Forall_app; split; [assumption|constructor; [lia|constructor]]|].
      split; [rewrite decimal_snoc, T3; lia|].
      right. destruct T4 as [->|T4].
      * unfold decimal in T3. cbn [fold_left] in T3. lia.
      * destruct t; [congruence|]. exact T4.
Qed.

Lemma dec_str_spec : forall n, decimal_text (dec_str n) n.
Proof.
  intros n. unfold dec_str. destruct (dec_loop_spec (S (N.to_nat (N.log2 n))) n []) as (t & E & H).
  - rewrite Nat2N.inj_succ, N2Nat.id. destruct n as [|p]; [reflexivity|]. apply N.log2_spec. lia.
  - rewrite E, app_nil_r. apply H. discriminate.
Qed.

(** ** All tags *)

Lemma domain_form_spec : forall idna ascii d, idna_to_ascii idna d <> None ->
  exists t, domain_form idna ascii d = Val t /\ written_form idna ascii d t.
Proof.
  intros idna ascii d H. unfold domain_form, domain_to_ascii, domain_to_unicode, written_form, select_str_form.
  assert (forall x, exists t, (if eq_ignore_ascii_case d x then d else x) = t
      /\ (lower d = lower x /\ t = d \/ lower d <> lower x /\ t = x)) as X.
  { intros x. destruct (eq_ignore_ascii_case d x) eqn:E.
    - apply eqic_lower in E. exists d. auto.
    - exists x. split; [reflexivity|]. right. split; [|reflexivity]. intros Y. apply eqic_lower in Y. congruence. }
  destruct ascii.
  - destruct (idna_to_ascii idna d) as [a|]; [|congruence]. cbn [bind]. destruct (X a) as (t & E & Y).
    exists t. rewrite E. split; [reflexivity|]. exists a. split; [reflexivity|exact Y].
  - cbn [bind]. destruct (X (fst (idna_to_unicode idna d))) as (t & E & Y).
    exists t. rewrite E. split; [reflexivity|]. eexists. split; [reflexivity|exact Y].
Qed.

Lemma table_names : forall s, map (fun p => lit (fst p)) (tag_table s) =
  map lit ["v"; "d"; "i"; "s"; "a"; "c"; "l"; "t"; "x"; "h"; "bh"; "b"; "z"]%string.
Proof. reflexivity. Qed.

Lemma default_names_eq : forall u order, compute_tag_names u order =
  match order with Some sort => sort (default_names u) | None => default_names u end.
Proof.
  intros u order. unfold compute_tag_names, default_names, tag_table. cbn [filter snd map fst].
  destruct order as [sort|]; [f_equal|];
  destruct (u_identity u), (u_canonicalization u) as [[] []], (u_body_length u), (u_timestamp u), (u_expiration u), (u_copied_headers u);
    reflexivity.
Qed.

Lemma find_ext : forall n v (tags : list (list N * list N)), NoDup (map fst tags) -> In (n, v) tags ->
  find (fun tv => leqb (fst tv) n) tags = Some (n, v).
Proof.
  induction tags as [|[m x] tags IH]; intros Hd Hin; [destruct Hin|].
  cbn [find fst]. cbn [map fst] in Hd. inversion Hd as [|? ? Hni Hd']. subst.
  destruct (leqb m n) eqn:E.
  - apply leqb_eq in E. subst. destruct Hin as [Hin|Hin]; [congruence|].
    exfalso. apply Hni. apply in_map_iff. exists (n, v). auto.
  - destruct Hin as [Hin|Hin]; [injection Hin as -> ->; rewrite leqb_refl in E; discriminate|]. apply IH; assumption.
Qed.

Lemma table_in : forall u n, In n (map (fun p => lit (fst p)) (filter snd (tag_table u))) ->
  exists p, In p (tag_table u) /\ snd p = true /\ n = lit (fst p).
Proof.
  intros u n H. apply in_map_iff in H as (p & <- & H). apply filter_In in H as [H1 H2]. exists p. auto.
Qed.

Ltac skip_tags :=
  unfold format_one; cbv zeta;
  repeat match goal with
  | |- context [leqb (lit ?a) (lit ?b)] =>
      let r := eval vm_compute in (leqb (lit a) (lit b)) in
      change (leqb (lit a) (lit b)) with r; cbv iota
  end.

Lemma lit_ascii : forall n, forallb is_ascii (lit n) = true -> str_len (lit n) = length (lit n).
Proof.
  intros n H. apply str_len_ascii. rewrite forallb_forall in H. apply Forall_forall. intros c Hc.
  specialize (H c Hc). unfold is_ascii in H. lia.
Qed.

Section Tags.
Variable idna : Idna.
Variable u : USig.
Variable est : nat.
Variable w : nat.
Variable ind : str.
Variable ascii : bool.
Hypothesis Hind : str_len ind = length ind.
Hypothesis Hok : formattable idna u.

Lemma format_one_spec : forall out i ins n last, In n (default_names u) -> n <> lit "b" ->
  exists ps, tag_pieces idna u ascii [] (stop_of last) n ps
    /\ format_one idna u est (mkFmt w ind last ascii) (out, i) ins n = Val (puts w ind (out, i) ps, ins).
Proof.
  intros out i ins n last Hin Hb.
  destruct Hok as (D1 & D2 & D3 & Hh & Hbh & Hz & Hnd & Hext).
  set (fmt := mkFmt w ind last ascii).
  assert (f_width fmt = w) as Fw by reflexivity. assert (f_indent fmt = ind) as Fi by reflexivity.
  assert (forall m v, str_len m = length m -> format_tag (out, i) fmt m v = puts w ind (out, i) [start (m ++ [61] ++ v ++ stop_of last)]) as T.
  { intros m v Hm. apply (tag_puts w ind Hind fmt); auto. }
  unfold default_names in Hin. apply in_app_iff in Hin as [Hin|Hin].
  - apply table_in in Hin as (p & Hp & Hs & ->). unfold tag_table in Hp. cbn [In] in Hp.
    repeat destruct Hp as [<-|Hp]; try destruct Hp; cbn [fst snd] in *; skip_tags.
    + eexists. split; [apply tp_v|]. unfold format_tag_v. rewrite T by reflexivity. reflexivity.
    + destruct (domain_form_spec idna ascii (u_domain u) D1) as (t & E & W).
      eexists. split; [apply tp_d; exact W|]. unfold format_tag_d. cbn [f_ascii fmt]. rewrite E. cbn [bind]. rewrite T by reflexivity. reflexivity.
    + destruct (u_identity u) as [id|] eqn:Eid; [|discriminate]. destruct (D3 id eq_refl) as [D4 D5].
      destruct (domain_form_spec idna ascii (id_domain id) D4) as (t & E & W).
      eexists. split.
      * eapply tp_i; [exact Eid|exact W|]. instantiate (1 := encode_internal None ascii (as_bytes (unwrap_or (id_local_part id) []))).
        apply encode_spec. destruct (id_local_part id) as [l|] eqn:El; [|constructor]. apply as_bytes_bytes. cbn [unwrap_or]. eapply D5. reflexivity.
      * unfold format_tag_i. cbn [f_ascii fmt]. rewrite E. cbn [bind]. rewrite T by reflexivity. cbn [bind].
        do 2 f_equal. f_equal. f_equal. destruct (id_local_part id) as [l|]; cbn [unwrap_or].
        -- f_equal. destruct ascii; unfold qp_encode, qp_encode_ascii_only; rewrite <- !app_assoc; reflexivity.
        -- reflexivity.
    + destruct (domain_form_spec idna ascii (u_selector u) D2) as (t & E & W).
      eexists. split; [apply tp_s; exact W|]. unfold format_tag_s. cbn [f_ascii fmt]. rewrite E. cbn [bind]. rewrite T by reflexivity. reflexivity.
    + eexists. split; [apply tp_a|]. unfold format_tag_a. rewrite T by reflexivity. cbn [bind]. destruct (u_algorithm u); reflexivity.
    + eexists. split; [apply tp_c|]. unfold format_tag_c, canon_text.
      destruct (u_canonicalization u) as [[] []]; cbn [c_header c_body] in *; try discriminate; rewrite T by reflexivity; reflexivity.
    + destruct (u_body_length u) as [x|] eqn:Ex; [|discriminate].
      eexists. split; [eapply tp_l; [exact Ex|apply dec_str_spec]|]. unfold format_tag_l. rewrite T by reflexivity. reflexivity.
    + destruct (u_timestamp u) as [x|] eqn:Ex; [|discriminate].
      eexists. split; [eapply tp_t; [exact Ex|apply dec_str_spec]|]. unfold format_tag_t. rewrite T by reflexivity. reflexivity.
    + destruct (u_expiration u) as [x|] eqn:Ex; [|discriminate].
      eexists. split; [eapply tp_x; [exact Ex|apply dec_str_spec]|]. unfold format_tag_x. rewrite T by reflexivity. reflexivity.
    + destruct (tag_h_puts w ind Hind fmt Fw Fi out i (u_signed_headers u) Hh) as (t & ts & E1 & E2).
      eexists. split; [apply tp_h; exact E1|]. rewrite E2. reflexivity.
    + eexists. split; [apply tp_bh; apply encode_base64_spec; exact Hbh|]. rewrite (tag_bh_puts w ind Hind fmt Fw Fi). reflexivity.
    + congruence.
    + destruct (u_copied_headers u) as [|[m v] fs] eqn:Ez; [discriminate|].
      destruct (tag_z_puts w ind Hind fmt Fw Fi out i m v fs Hz) as (q & ps & Hq & Hps & E).
      eexists. split; [eapply tp_z; [exact Ez|exact Hq|exact Hps]|]. rewrite E. reflexivity.
  - apply in_map_iff in Hin as ([m v] & <- & Hin). cbn [fst] in *.
    rewrite Forall_forall in Hext. destruct (Hext m) as [Ha Hn]. { apply in_map_iff. exists (m, v). auto. }
    exists [start (m ++ [61] ++ v ++ stop_of last)]. split; [apply tp_ext; exact Hin|].
    unfold format_one. cbv zeta.
    repeat match goal with |- context [leqb m (lit ?a)] =>
      replace (leqb m (lit a)) with false;
      [cbv iota|symmetry; apply leqb_neq; intros ->; apply Hn; rewrite table_names; cbn [map In]; tauto] end.
    rewrite (find_ext _ v _ Hnd Hin). rewrite T by (apply str_len_ascii; exact Ha). reflexivity.
Qed.

Lemma format_before : forall before out i ins rest, incl before (default_names u) -> ~ In (lit "b") before -> rest <> [] ->
  exists ps, Forall2 (tag_pieces idna u ascii [] [59]) before ps
    /\ format_tags idna u est w ind ascii (out, i) ins (before ++ rest) =
       format_tags idna u est w ind ascii (puts w ind (out, i) (concat ps)) ins rest.
Proof.
  induction before as [|n before IH]; intros out i ins rest Hin Hb Hr.
  - exists []. split; [constructor|]. cbn [concat app]. rewrite puts_nil. reflexivity.
  - cbn [app format_tags]. replace (is_nil (before ++ rest)) with false.
    2:{ symmetry. apply is_nil_false. intros X. apply app_eq_nil in X as [_ X]. congruence. }
    destruct (format_one_spec out i ins n false) as (ps & Hps & E).
    { apply Hin. left. reflexivity. }
    { intros ->. apply Hb. left. reflexivity. }
    rewrite E. cbn [bind]. destruct (puts w ind (out, i) ps) as [o1 i1] eqn:E1.
    destruct (IH o1 i1 ins rest) as (pss & Hpss & E2); [intros x Hx; apply Hin; right; exact Hx|intros X; apply Hb; right; exact X|assumption|].
    exists (ps :: pss). split; [constructor; assumption|]. rewrite E2. cbn [concat]. rewrite puts_app, E1. reflexivity.
Qed.

Lemma format_after : forall after out i ins, incl after (default_names u) -> ~ In (lit "b") after ->
  exists qs, tags_pieces idna u ascii [] after qs
    /\ format_tags idna u est w ind ascii (out, i) ins after = Val (puts w ind (out, i) qs, ins).
Proof.
  induction after as [|n after IH]; intros out i ins Hin Hb.
  - exists []. split; [constructor|]. rewrite puts_nil. reflexivity.
  - cbn [format_tags]. destruct (format_one_spec out i ins n (is_nil after)) as (ps & Hps & E).
    { apply Hin. left. reflexivity. }
    { intros ->. apply Hb. left. reflexivity. }
    rewrite E. cbn [bind]. destruct (puts w ind (out, i) ps) as [o1 i1] eqn:E1.
    destruct (IH o1 i1 ins) as (qs & Hqs & E2); [intros x Hx; apply Hin; right; exact Hx|intros X; apply Hb; right; exact X|].
    exists (ps ++ qs). split; [constructor; assumption|]. rewrite E2, puts_app, E1. reflexivity.
Qed.
End Tags.

(** the column after the b= tag value *)
Lemma letters_cursor : forall w ind k s i, length s = k -> (w <= i)%nat -> s <> [] ->
  let cw := Nat.max (w - length ind) 1 in
  let m := Nat.modulo k cw in
  snd (layout w ind i (letters s)) = ((if Nat.eqb m 0 then cw else m) + length ind)%nat.
Proof.
  intros w ind k. induction k as [k IH] using lt_wf_ind. intros s i Hk Hi Hs cw m.
  destruct s as [|c s]; [congruence|]. cbn [length] in Hk.
  rewrite layout_break by exact Hi.
  destruct (Nat.le_gt_cases k cw) as [L|L].
  - assert (layout w ind (length ind + 1) (letters s) = (s, (length ind + 1 + length s)%nat)) as ->.
    { destruct s as [|c' s]; [cbn; f_equal; lia|]. apply layout_fit. cbn [length] in *. subst cw. lia. }
    cbn [snd]. subst m. destruct (Nat.eqb_spec (Nat.modulo k cw) 0) as [E|E].
    + destruct (Nat.eq_dec k cw) as [->|]; [lia|]. rewrite Nat.mod_small in E by lia. lia.
    + destruct (Nat.eq_dec k cw) as [X|]; [rewrite X, Nat.mod_same in E by lia; lia|]. rewrite Nat.mod_small by lia. lia.
  - replace (letters s) with (letters (firstn (cw - 1) s) ++ letters (skipn (cw - 1) s)).
    2:{ unfold letters. rewrite <- map_app, firstn_skipn. reflexivity. }
    rewrite layout_app.
    assert (layout w ind (length ind + 1) (letters (firstn (cw - 1) s)) = (firstn (cw - 1) s, (length ind + 1 + (cw - 1))%nat)) as ->.
    { destruct (Nat.eq_dec cw 1) as [X|X].
      - rewrite X. cbn. f_equal. lia.
      - rewrite layout_fit; rewrite firstn_length, Nat.min_l by lia; [reflexivity|]. subst cw. lia. }
    pose proof (IH (k - cw)%nat ltac:(lia) (skipn (cw - 1) s) (length ind + 1 + (cw - 1))%nat) as X.
    destruct (layout w ind (length ind + 1 + (cw - 1)) (letters (skipn (cw - 1) s))) as [t j].
    cbn [snd] in *. rewrite X.
    + subst m. fold cw. replace (Nat.modulo k cw) with (Nat.modulo (k - cw) cw); [reflexivity|].
      replace k with (k - cw + 1 * cw)%nat at 2 by lia. rewrite Nat.mod_add by lia. reflexivity.
    + rewrite skipn_length. lia.
    + subst cw. lia.
    + intros Y. apply (f_equal (@length _)) in Y. rewrite skipn_length in Y. cbn [length] in Y. lia.
Qed.

Lemma letters_column : forall w ind s i,
  let cw := Nat.max (w - length ind) 1 in
  let m := Nat.modulo (length s - (w - i)) cw in
  snd (layout w ind i (letters s)) =
  (if Nat.leb (length s) (w - i) then i + length s else (if Nat.eqb m 0 then cw else m) + length ind)%nat.
Proof.
  intros w ind s i cw m. destruct (Nat.leb_spec (length s) (w - i)) as [L|L].
  - destruct s as [|c s].
    + cbn. lia.
    + rewrite layout_fit; [reflexivity|]. cbn [length] in *. lia.
  - replace (letters s) with (letters (firstn (w - i) s) ++ letters (skipn (w - i) s)).
    2:{ unfold letters. rewrite <- map_app, firstn_skipn. reflexivity. }
    rewrite layout_app.
    assert (layout w ind i (letters (firstn (w - i) s)) = (firstn (w - i) s, (i + (w - i))%nat)) as ->.
    { destruct (Nat.le_gt_cases w i).
      - replace (w - i)%nat with 0%nat by lia. cbn. f_equal. lia.
      - rewrite layout_fit; rewrite firstn_length, Nat.min_l by lia; [reflexivity|lia]. }
    pose proof (letters_cursor w ind (length s - (w - i))%nat (skipn (w - i) s) (i + (w - i))%nat) as X.
    destruct (layout w ind (i + (w - i)) (letters (skipn (w - i) s))) as [t j]. cbn [snd] in *. apply X.
    + apply skipn_length.
    + lia.
    + intros Y. apply (f_equal (@length _)) in Y. rewrite skipn_length in Y. cbn [length] in Y. lia.
Qed.

Lemma tag_b_puts : forall w ind fmt out i est, str_len ind = length ind -> f_width fmt = w -> f_indent fmt = ind ->
  forall o1 i1, puts w ind (out, i) [mkPiece Start (lit "b=") 1] = (o1, i1) ->
  format_tag_name_b (out, i) fmt est =
  (puts w ind (o1, snd (layout w ind i1 (letters (repeat 65 est)))) [glued (stop_of (f_last fmt))], str_len o1).
Proof.
  intros w ind fmt out i est Hind Hw Hi o1 i1 E. unfold format_tag_name_b. rewrite (initial_fmt w ind _ _ fmt Hw Hi).
  rewrite (puts_start w ind Hind) with (len := 3%nat) in E by reflexivity.
  destruct (advance_i_initial (out, i) 3 (mkFmt w ind false false)) as [o j]. injection E as <- <-.
  rewrite letters_column, repeat_length, Hw, Hi, Hind. rewrite puts_glued by exact Hind. rewrite stop_len. unfold stop_of.
  destruct (f_last fmt); [rewrite app_nil_r, Nat.add_0_r|]; reflexivity.
Qed.

Lemma lit_ascii_list : forall n c, forallb is_ascii (lit n) = true -> In c (lit n) -> c < 128.
Proof. intros n c H Hc. rewrite forallb_forall in H. specialize (H c Hc). unfold is_ascii in H. lia. Qed.

Lemma lower_ascii : forall s, Forall (fun c => c < 128) (lower s) -> Forall (fun c => c < 128) s.
Proof.
  intros s H. unfold lower in H. rewrite Forall_map in H. eapply Forall_impl; [|exact H].
  intros c. cbn beta. destruct ((65 <=? c) && (c <=? 90)) eqn:E; lia.
Qed.

Lemma header_name_len : forall f, format_ok f -> str_len (of_header_name f) = length (of_header_name f).
Proof.
  intros f (H & _). apply str_len_ascii, lower_ascii. rewrite H. apply Forall_forall. intros c. apply lit_ascii_list. reflexivity.
Qed.

Lemma wsps_len : forall s, wsps s -> str_len s = length s.
Proof. intros s H. apply str_len_ascii. eapply Forall_impl; [|exact H]. intros c Hc. cbn beta in *. lia. Qed.

Lemma tag_names_perm : forall u f, format_ok f -> Permutation (tag_names u f) (default_names u).
Proof.
  intros u f (_ & _ & _ & H). unfold tag_names. destruct (of_tag_order f); [apply H|reflexivity].
Qed.

Lemma default_names_nodup : forall idna u, formattable idna u -> NoDup (default_names u).
Proof.
  intros idna u (_ & _ & _ & _ & _ & _ & Hnd & Hext). unfold default_names.
  assert (NoDup (map (fun p => lit (fst p)) (tag_table u))) as N1.
  { rewrite table_names. repeat constructor; cbn [map In]; intros X; repeat destruct X as [X|X]; try discriminate; try tauto; apply lit_inj in X; discriminate. }
  assert (forall l, NoDup (map (fun p : string * bool => lit (fst p)) l) -> NoDup (map (fun p : string * bool => lit (fst p)) (filter snd l))) as NF.
  { induction l as [|p l IH]; intros H; [constructor|]. cbn [map] in H. inversion H as [|? ? H1 H2]; subst. cbn [filter].
    destruct (snd p); [|auto]. cbn [map]. constructor; [|auto]. intros X. apply H1. apply in_map_iff in X as (q & E & Q).
    apply filter_In in Q as [Q _]. apply in_map_iff. exists q. auto. }
  apply NF in N1. rewrite Forall_forall in Hext. revert N1. generalize (filter snd (tag_table u)) (incl_filter snd (tag_table u)).
  induction l as [|p l IH]; intros Hl N1; [exact Hnd|]. cbn [map] in *. inversion N1 as [|? ? H1 H2]; subst. cbn [app]. constructor.
  - intros X. apply in_app_iff in X as [X|X]; [auto|]. apply Hext in X as [_ X]. apply X. apply in_map_iff. exists p. split; [reflexivity|].
    apply Hl. left. reflexivity.
  - apply IH; [intros x Hx; apply Hl; right; exact Hx|exact H2].
Qed.

Lemma b_in_names : forall u, In (lit "b") (default_names u).
Proof.
  intros u. unfold default_names. apply in_app_iff. left. apply in_map_iff. exists ("b"%string, true). split; [reflexivity|].
  apply filter_In. split; [|reflexivity]. cbn. tauto.
Qed.

Lemma fold_puts : forall w ind out i ps t j, layout w ind i ps = (t, j) -> puts w ind (out, i) ps = (out ++ t, j).
Proof. intros. unfold puts. cbn [fst snd]. rewrite H. reflexivity. Qed.

(** The formatter writes the parts of the header value. *)
Theorem format_spec : forall idna u f est, formattable idna u -> format_ok f ->
  exists pre post, value_parts idna u f est pre post
    /\ format_without_signature idna u f est = Val (pre ++ post, str_len pre).
Proof.
  intros idna u f est Hok Hf. pose proof Hf as (Hn & Hws & Hne & Ho).
  pose proof (wsps_len _ Hws) as Hind.
  pose proof (tag_names_perm u f Hf) as HP.
  assert (NoDup (tag_names u f)) as ND. { eapply Permutation_NoDup; [symmetry; exact HP|]. eapply default_names_nodup; eassumption. }
  assert (In (lit "b") (tag_names u f)) as HB. { eapply Permutation_in; [symmetry; exact HP|apply b_in_names]. }
  apply in_split in HB as (before & after & HN).
  rewrite HN in ND. pose proof (NoDup_remove_2 _ _ _ ND) as Hnb.
  assert (forall l, (forall x, In x l -> In x (before ++ lit "b" :: after)) -> incl l (default_names u)) as HI.
  { intros l Hl x Hx. eapply Permutation_in; [exact HP|]. rewrite HN. apply Hl. exact Hx. }
  unfold format_without_signature. rewrite default_names_eq. fold (tag_names u f). rewrite HN.
  replace (is_nil (before ++ lit "b" :: after)) with false. 2:{ destruct before; reflexivity. }
  rewrite (header_name_len f Hf).
  set (w := of_line_width f). set (ind := of_indentation f) in *. set (asc := of_ascii_only f).
  set (i0 := (length (of_header_name f) + 1)%nat).
  destruct (format_before idna u est w ind asc Hind Hok before [] i0 None (lit "b" :: after)) as (ps & Hps & E1).
  { apply HI. intros x Hx. apply in_app_iff. left. exact Hx. }
  { intros X. apply Hnb. apply in_app_iff. left. exact X. }
  { discriminate. }
  rewrite E1. destruct (layout w ind i0 (concat ps)) as [t0 j0] eqn:L0.
  rewrite (fold_puts _ _ [] _ _ _ _ L0). cbn [app format_tags].
  unfold format_one at 1. cbv zeta.
  change (leqb (lit "b") (lit "a")) with false. change (leqb (lit "b") (lit "b")) with true. cbv iota.
  destruct (puts w ind (t0, j0) [mkPiece Start (lit "b=") 1]) as [o1 i1] eqn:P1.
  rewrite (tag_b_puts w ind (mkFmt w ind (is_nil after) asc) t0 j0 est Hind eq_refl eq_refl o1 i1 P1). cbn [f_last bind].
  destruct (layout w ind i1 (letters (repeat 65 est))) as [x i2] eqn:L1. cbn [snd].
  rewrite puts_glued by exact Hind.
  destruct (format_after idna u est w ind asc Hind Hok after (o1 ++ stop_of (is_nil after)) (i2 + length (stop_of (is_nil after)))%nat (Some (str_len o1))) as (qs & Hqs & E2).
  { apply HI. intros y Hy. apply in_app_iff. right. right. exact Hy. }
  { intros X. apply Hnb. apply in_app_iff. right. exact X. }
  rewrite E2. cbn [bind].
  rewrite <- (puts_glued w ind Hind), <- puts_app. cbn [app].
  destruct (layout w ind i2 (glued (stop_of (is_nil after)) :: qs)) as [t2 j2] eqn:L2.
  rewrite (fold_puts _ _ _ _ _ _ _ L2).
  exists o1, t2. split; [|reflexivity].
  exists before, after, ps, qs, i1, i2, x, j2. cbv zeta. fold w ind asc i0.
  split; [exact HN|]. split; [exact Hps|]. split; [exact Hqs|]. split.
  - rewrite layout_app, L0. unfold puts in P1. cbn [fst snd] in P1.
    destruct (layout w ind j0 [mkPiece Start (lit "b=") 1]) as [t3 j3]. exact P1.
  - split; [exact L1|exact L2].
Qed.

(** ** Insertion of the signature *)

Definition no_crlf (l : list N) : Prop := forall x y, l <> x ++ [13; 10] ++ y.

Lemma no_crlf_cons : forall b l, no_crlf l -> (b = 13 -> hd 0 l <> 10) -> no_crlf (b :: l).
Proof.
  intros b l H Hb x y E. destruct x as [|c x]; cbn [app] in E.
  - injection E as -> ->. apply Hb; reflexivity.
  - injection E as -> E. exact (H x y E).
Qed.

Lemma split_crlf_pieces : forall n v, (length v <= n)%nat -> Forall no_crlf (split_crlf v).
Proof.
  induction n as [|n IH]; intros v L.
  - destruct v; [|simpl in L; lia]. constructor; [|constructor]. intros [|c x] y E; discriminate.
  - destruct v as [|b rest]. { constructor; [|constructor]. intros [|c x] y E; discriminate. }
    cbn [length] in L. rewrite split_crlf_cons. cbn zeta.
    assert (forall c rest', (b = 13 -> c <> 10) -> rest = c :: rest' \/ rest = [] ->
      Forall no_crlf match split_crlf rest with l :: ls => (b :: l) :: ls | [] => [[b]] end) as X.
    { intros c rest' Hc Hr. pose proof (split_crlf_nonempty rest) as NE. destruct (split_crlf rest) as [|l ls] eqn:E; [congruence|].
      pose proof (IH rest ltac:(lia)) as F. rewrite E in F. inversion F as [|? ? F1 F2]. subst. constructor; [|exact F2].
      apply no_crlf_cons; [exact F1|]. intros Hb Hl. destruct l as [|x l]; [cbn in Hl; lia|]. cbn [hd] in Hl. subst x.
      pose proof (split_crlf_sound (length rest) rest (10 :: l) ls ltac:(lia) E) as S. rewrite unlines_cons in S.
      destruct Hr as [Hr|Hr]; rewrite Hr in S; [|discriminate]. injection S as S _. exact (Hc Hb S). }
    destruct rest as [|c rest'].
    + apply (X 0 []); [lia|right; reflexivity].
    + destruct ((b =? CR) && (c =? LF)) eqn:E.
      * constructor; [intros [|? ?] ? Y; discriminate|]. apply IH. cbn [length] in L. lia.
      * apply (X c rest'); [|left; reflexivity]. unfold CR, LF in E. intros. lia.
Qed.

Lemma column_last_line : forall name pre l more, rev (split_crlf pre) = l :: more ->
  column name pre (if is_nil more then (length name + length l + 1)%nat else length l).
Proof.
  intros name pre l more H. apply (f_equal (@rev _)) in H. rewrite rev_involutive in H. cbn [rev] in H.
  pose proof (split_crlf_pieces (length pre) pre ltac:(lia)) as F. rewrite H in F.
  apply Forall_app in F as [_ F]. inversion F as [|? ? F1 _]. subst. unfold column.
  destruct (rev more) as [|f m'] eqn:E.
  - destruct more as [|x more]; [|cbn [rev] in E; destruct (rev more); discriminate]. right. cbn [is_nil app] in *.
    apply (split_crlf_sound (length pre)) in H; [|lia]. unfold unlines in H. cbn [map concat] in H. rewrite app_nil_r in H. subst pre.
    split; [exact F1|lia].
  - destruct more as [|x more]; [discriminate|]. left. cbn [is_nil app] in *.
    apply (split_crlf_sound (length pre)) in H; [|lia]. rewrite <- unlines_snoc in H.
    exists (unlines f m'), l. split; [exact H|]. split; [exact F1|reflexivity].
Qed.

Lemma no_crlf_suffix : forall a l a' l', a ++ [13; 10] ++ l = a' ++ [13; 10] ++ l' -> no_crlf l -> no_crlf l' -> l = l'.
Proof.
  induction a as [|c a IH]; intros l a' l' E H H'.
  - destruct a' as [|c' a']; cbn [app] in E; [injection E as E; exact E|].
    exfalso. destruct a' as [|c'' a'']; cbn [app] in E; [injection E as E1 E2 E3; lia|].
    injection E as _ _ E. exact (H a'' l' E).
  - destruct a' as [|c' a']; cbn [app] in E.
    + exfalso. destruct a as [|c'' a'']; cbn [app] in E; [injection E as E1 E2 E3; lia|].
      injection E as _ _ E. symmetry in E. exact (H' a'' l E).
    + injection E as _ E. eapply IH; eauto.
Qed.

Lemma column_det : forall name pre n m, column name pre n -> column name pre m -> n = m.
Proof.
  intros name pre n m [(a & l & E & F & ->)|[F ->]] [(a' & l' & E' & F' & ->)|[F' ->]].
  - subst pre. f_equal. exact (no_crlf_suffix a l a' l' E' F F').
  - exfalso. exact (F' _ _ E).
  - exfalso. exact (F _ _ E').
  - reflexivity.
Qed.

Lemma column_exists : forall name pre, exists n, column name pre n.
Proof.
  intros name pre. destruct (rev (split_crlf pre)) as [|l more] eqn:E.
  - apply (f_equal (@rev _)) in E. rewrite rev_involutive in E. exfalso. eapply split_crlf_nonempty; eauto.
  - eexists. apply column_last_line. exact E.
Qed.

Theorem insert_spec : forall f pre post sd n, format_ok f -> column (of_header_name f) pre n ->
  insert_signature_data (pre ++ post) (str_len pre) (of_header_name f) sd (of_line_width f) (of_indentation f) =
  Val (pre ++ fst (layout (of_line_width f) (of_indentation f) n (letters (encode_base64 sd))) ++ post).
Proof.
  intros f pre post sd n Hf Hc. pose proof Hf as (_ & Hws & _).
  unfold insert_signature_data. rewrite split_at_byte_app.
  destruct (rev (split_crlf pre)) as [|l more] eqn:E.
  { apply (f_equal (@rev _)) in E. rewrite rev_involutive in E. exfalso. eapply split_crlf_nonempty; eauto. }
  rewrite (header_name_len f Hf).
  pose proof (column_det _ _ _ _ Hc (column_last_line (of_header_name f) pre l more E)) as <-.
  rewrite (chunks_layout (of_line_width f) (of_indentation f)) by (auto; apply wsps_len; exact Hws).
  destruct (layout _ _ _ _) as [t j]. reflexivity.
Qed.
