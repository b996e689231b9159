(** Proofs about src/header.rs. *)

From Verif Require Import Lib Utf8 Canon Header SpecCanon SpecHeader Utf8Proofs.

Lemma is_name_char_iff : forall c, is_name_char c = true <-> ftext c.
Proof. intros. unfold is_name_char, is_ascii_graphic, in_range, ftext. lia. Qed.

Lemma forallb_Forall_iff : forall A (p : A -> bool) (P : A -> Prop), (forall x, p x = true <-> P x) ->
  forall l, forallb p l = true <-> Forall P l.
Proof.
  intros A p P H l. rewrite forallb_forall, Forall_forall. split; intros X x Hx; apply H; auto.
Qed.

Lemma field_name_new_spec : forall s n, field_name_new s = Some n <-> n = s /\ field_name s.
Proof.
  intros s n. unfold field_name_new, field_name.
  rewrite <- (forallb_Forall_iff _ _ _ is_name_char_iff).
  destruct s as [|c s]; [simpl; split; [discriminate|intros (_ & H & _); congruence]|].
  cbn [is_nil orb]. destruct (forallb is_name_char (c :: s)); simpl.
  - split; [intros H; inv H; repeat split; auto; discriminate|intros (-> & _); auto].
  - split; [discriminate|intros (_ & _ & H); discriminate].
Qed.

(** ** split_crlf *)

Lemma split_crlf_nonempty : forall v, split_crlf v <> [].
Proof.
  destruct v as [|b v]; simpl; [discriminate|]. destruct v; [discriminate|].
  destruct ((b =? CR) && (n =? LF)); [discriminate|]. destruct (split_crlf (n :: v)); discriminate.
Qed.

Lemma split_crlf_cons : forall b rest,
  split_crlf (b :: rest) =
    let other := match split_crlf rest with l :: ls => (b :: l) :: ls | [] => [[b]] end in
    match rest with
    | c :: rest' => if (b =? CR) && (c =? LF) then [] :: split_crlf rest' else other
    | [] => other
    end.
Proof. reflexivity. Qed.

Lemma unlines_nil : forall l ls, unlines [] (l :: ls) = 13 :: 10 :: unlines l ls.
Proof. reflexivity. Qed.
Lemma unlines_cons : forall b l ls, unlines (b :: l) ls = b :: unlines l ls.
Proof. reflexivity. Qed.

Lemma split_crlf_sound : forall n v l ls, (length v <= n)%nat -> split_crlf v = l :: ls -> v = unlines l ls.
Proof.
  induction n as [|n IH]; intros v l ls L H.
  - destruct v; [|simpl in L; lia]. inv H. auto.
  - destruct v as [|b rest]; [inv H; auto|]. rewrite split_crlf_cons in H. cbn zeta in H. simpl in L.
    assert (match split_crlf rest with l0 :: ls0 => (b :: l0) :: ls0 | [] => [[b]] end = l :: ls ->
            b :: rest = unlines l ls) as Other.
    { intros X. pose proof (split_crlf_nonempty rest). destruct (split_crlf rest) as [|l0 ls0] eqn:E; [congruence|].
      inv X. rewrite unlines_cons. f_equal. apply IH; auto. lia. }
    destruct rest as [|c rest']; auto.
    destruct ((b =? CR) && (c =? LF)) eqn:E; auto.
    unfold CR, LF in E. apply andb_true_iff in E. rewrite !N.eqb_eq in E. destruct E as [-> ->].
    injection H as <- H.
    destruct ls as [|l1 ls]; [exfalso; eapply split_crlf_nonempty; eauto|].
    rewrite unlines_nil. do 2 f_equal. apply IH; auto. simpl in L. lia.
Qed.

Definition no_cr (l : list N) : Prop := ~ In 13 l.

Lemma split_crlf_complete : forall l ls, no_cr l -> Forall no_cr ls -> split_crlf (unlines l ls) = l :: ls.
Proof.
  intros l ls. revert l. induction ls as [|l1 ls IH].
  - unfold unlines. simpl. intros l H _. rewrite app_nil_r. induction l as [|b l IHl]; auto.
    rewrite split_crlf_cons, IHl by (intros X; apply H; simpl; auto). cbn zeta.
    destruct l as [|c l]; auto. replace (b =? CR) with false; auto.
    symmetry. apply N.eqb_neq. unfold CR. intros ->. apply H. simpl. auto.
  - intros l H H2. apply Forall_cons_iff in H2. destruct H2 as [H2 H3]. induction l as [|b l IHl].
    + rewrite unlines_nil. rewrite split_crlf_cons. unfold CR, LF. rewrite !N.eqb_refl. cbn [andb].
      rewrite IH; auto.
    + rewrite unlines_cons, split_crlf_cons, IHl by (intros X; apply H; simpl; auto). cbn zeta.
      destruct (unlines l (l1 :: ls)) eqn:E; auto. replace (b =? CR) with false; auto.
      symmetry. apply N.eqb_neq. unfold CR. intros ->. apply H. simpl. auto.
Qed.

(** ** Field bodies *)

Lemma plain_iff : forall l, line_chars_ok l = true <-> plain l.
Proof.
  intros l. unfold line_chars_ok, plain. rewrite negb_true_iff, existsb_false, Forall_forall.
  split; intros H x Hx; specialize (H x Hx); unfold is_ascii_control, TAB in *; lia.
Qed.

Lemma folded_iff : forall l, continuation_ok l = true <-> folded l.
Proof.
  intros l. unfold continuation_ok, folded. rewrite andb_true_iff, negb_true_iff.
  assert (starts_with SP l || starts_with TAB l = true <-> (exists w l', l = w :: l' /\ (w = 32 \/ w = 9))) as ->.
  { unfold starts_with, SP, TAB. destruct l as [|w l']; simpl.
    - split; [discriminate|intros (? & ? & H & _); discriminate].
    - split.
      + intros H. exists w, l'. split; auto. lia.
      + intros (w' & l'' & H & X). inv H. lia. }
  assert (forallb (fun b => (b =? SP) || (b =? TAB)) l = false <-> exists c, In c l /\ c <> 32 /\ c <> 9) as ->.
  { unfold SP, TAB. induction l as [|x l IH]; simpl.
    - split; [discriminate|intros (c & [] & _)].
    - rewrite andb_false_iff, IH. split.
      + intros [H|(c & H1 & H2)]; [exists x; split; auto; lia|exists c; auto].
      + intros (c & [->|H1] & H2); [left; lia|right; exists c; auto]. }
  tauto.
Qed.

Lemma body_lines_ok_false : forall ls,
  body_lines_ok false ls = true <-> Forall (fun l => plain l /\ folded l) ls.
Proof.
  induction ls as [|l ls IH]; simpl; [split; auto|].
  rewrite !andb_true_iff, plain_iff, folded_iff, IH, Forall_cons_iff. tauto.
Qed.

Lemma plain_no_cr : forall l, plain l -> no_cr l.
Proof. intros l H X. unfold plain in H. rewrite Forall_forall in H. apply H in X. lia. Qed.

Lemma field_body_ok_iff : forall v, field_body_ok v = true <-> field_body v.
Proof.
  intros v. unfold field_body_ok, field_body. split.
  - intros H. pose proof (split_crlf_nonempty v). destruct (split_crlf v) as [|l ls] eqn:E; [congruence|].
    simpl in H. rewrite !andb_true_iff, plain_iff, body_lines_ok_false in H.
    exists l, ls. split; [eapply split_crlf_sound; eauto|tauto].
  - intros (l & ls & -> & H1 & H2). rewrite split_crlf_complete.
    + simpl. rewrite !andb_true_iff, plain_iff, body_lines_ok_false. auto.
    + apply plain_no_cr; auto.
    + eapply Forall_impl; [|exact H2]. intros x [Hx _]. apply plain_no_cr; auto.
Qed.

Lemma field_body_new_spec : forall v b, field_body_new v = Some b <-> b = v /\ field_body v.
Proof.
  intros v b. unfold field_body_new. rewrite <- field_body_ok_iff.
  destruct (field_body_ok v); split; try easy.
  - intros H. inv H. auto.
  - intros [-> _]. auto.
Qed.

Lemma convert_fields_spec : forall l fs,
  convert_fields l = Some fs <-> fs = l /\ Forall (fun f => field_name (fst f) /\ field_body (snd f)) l.
Proof.
  induction l as [|[n b] l IH]; intros fs; simpl.
  - split; [intros H; inv H; auto|intros [-> _]; auto].
  - destruct (field_name_new n) as [n'|] eqn:E1.
    + apply field_name_new_spec in E1. destruct E1 as [-> E1].
      destruct (field_body_new b) as [b'|] eqn:E2.
      * apply field_body_new_spec in E2. destruct E2 as [-> E2].
        destruct (convert_fields l) as [fs'|].
        -- simpl. destruct (IH fs') as [I _]. destruct (I eq_refl) as [-> I']. split.
           ++ intros H. inv H. split; auto.
           ++ intros [-> _]. auto.
        -- simpl. split; [discriminate|]. intros [-> H]. inv H. destruct (IH l) as [_ I].
           discriminate I; auto.
      * split; [discriminate|]. intros [_ H]. inv H. simpl in H2.
        assert (field_body_new b = Some b) by (apply field_body_new_spec; tauto). congruence.
    + split; [discriminate|]. intros [_ H]. inv H. simpl in H2.
      assert (field_name_new n = Some n) by (apply field_name_new_spec; tauto). congruence.
Qed.

(** ** Lines *)

Lemma split_lf_app : forall l s, ~ In 10 l ->
  split_lf (l ++ s) = let '(ls, r) := split_lf s in
    match ls with l1 :: ls' => ((l ++ l1) :: ls', r) | [] => ([], l ++ r) end.
Proof.
  induction l as [|c l IH]; intros s H; simpl.
  - destruct (split_lf s) as [[|l1 ls] r]; auto.
  - rewrite IH by (intros X; apply H; simpl; auto). replace (c =? LF) with false.
    + destruct (split_lf s) as [[|l1 ls] r]; auto.
    + symmetry. apply N.eqb_neq. unfold LF. intros ->. apply H. simpl. auto.
Qed.

Lemma str_lines_term : forall l s, ~ In 10 l ->
  str_lines (l ++ 10 :: s) = unwrap_or (strip_suffix_str [CR] l) l :: str_lines s.
Proof.
  intros l s H. unfold str_lines. rewrite split_lf_app by auto. simpl.
  destruct (split_lf s) as [ls r]. replace (10 =? LF) with true by reflexivity.
  rewrite app_nil_r. simpl. auto.
Qed.

Lemma strip_cr_snoc : forall l, unwrap_or (strip_suffix_str [CR] (l ++ [13])) (l ++ [13]) = l.
Proof.
  intros l. unfold strip_suffix_str. rewrite rev_app_distr. simpl.
  apply rev_involutive.
Qed.

Lemma strip_cr_cases : forall l, (exists l', l = l' ++ [13] /\ unwrap_or (strip_suffix_str [CR] l) l = l')
  \/ unwrap_or (strip_suffix_str [CR] l) l = l.
Proof.
  intros l. destruct (snoc_cases _ l) as [->|(l' & x & ->)]; [right; auto|].
  destruct (N.eq_dec x 13) as [->|Hx].
  - left. exists l'. split; auto. apply strip_cr_snoc.
  - right. unfold strip_suffix_str. rewrite rev_app_distr. simpl. unfold CR.
    replace (13 =? x) with false by lia. auto.
Qed.

Lemma strip_cr_none : forall l, no_cr l -> unwrap_or (strip_suffix_str [CR] l) l = l.
Proof.
  intros l H. destruct (strip_cr_cases l) as [(l' & -> & _)|E]; auto.
  exfalso. apply H. apply in_or_app. simpl. auto.
Qed.

Lemma str_lines_nil : str_lines [] = [].
Proof. reflexivity. Qed.

Lemma str_lines_last : forall l, ~ In 10 l -> l <> [] -> str_lines l = [l].
Proof.
  intros l H Hn. unfold str_lines. rewrite <- (app_nil_r l) at 1. rewrite split_lf_app by auto. simpl.
  rewrite app_nil_r. destruct l; [congruence|]. auto.
Qed.

Definition clean (l : list N) : Prop := ~ In 10 l /\ ~ In 13 l.

Lemma str_lines_complete : forall ls s, lines_text ls s -> Forall clean ls -> str_lines s = ls.
Proof.
  intros ls s H. induction H; intros Hc.
  - auto.
  - inv Hc. apply str_lines_last; auto. apply H2.
  - apply Forall_cons_iff in Hc. destruct Hc as [[C1 C2] C3]. specialize (IHlines_text C3).
    destruct H as [->| ->].
    + simpl. rewrite str_lines_term by auto. rewrite strip_cr_none; auto. congruence.
    + replace (l ++ [13; 10] ++ s) with ((l ++ [13]) ++ 10 :: s) by (rewrite <- app_assoc; auto).
      rewrite str_lines_term.
      * rewrite strip_cr_snoc. congruence.
      * intros X. apply in_app_or in X. destruct X as [X|[X|[]]]; auto. discriminate.
Qed.

Lemma lf_cases : forall s, ~ In 10 s \/ exists a b, s = a ++ 10 :: b /\ ~ In 10 a.
Proof.
  induction s as [|c s IH]; [left; auto|]. destruct (N.eq_dec c 10) as [->|Hc].
  - right. exists [], s. auto.
  - destruct IH as [IH|(a & b & -> & IH)].
    + left. intros [X|X]; auto.
    + right. exists (c :: a), b. split; auto. intros [X|X]; auto.
Qed.

Lemma str_lines_sound : forall n s, (length s <= n)%nat -> lines_text (str_lines s) s.
Proof.
  induction n as [|n IH]; intros s L.
  - destruct s; [|simpl in L; lia]. rewrite str_lines_nil. constructor.
  - destruct (lf_cases s) as [H|(a & b & -> & H)].
    + destruct s as [|c s]; [rewrite str_lines_nil; constructor|].
      rewrite str_lines_last; auto; [|discriminate]. constructor. discriminate.
    + rewrite app_length in L. simpl in L. rewrite str_lines_term by auto.
      assert (lines_text (str_lines b) b) as I by (apply IH; lia).
      destruct (strip_cr_cases a) as [(a' & -> & E)|E]; rewrite E.
      * rewrite <- app_assoc. apply (lt_cons a' [13; 10]); auto.
      * apply (lt_cons a [10]); auto.
Qed.

(** ** Whole header blocks *)

Lemma Forall_flat_map_bytes : forall (P : N -> Prop), (forall b, 128 <= b -> P b) ->
  forall l, Forall P (as_bytes l) <-> Forall P l.
Proof.
  intros P HP. induction l as [|c l IH]; [simpl; split; auto|]. rewrite as_bytes_cons, Forall_app, IH, Forall_cons_iff.
  assert (Forall P (utf8_char c) <-> P c); [|tauto].
  unfold utf8_char. destruct (c <? 128) eqn:E1.
  - rewrite Forall_cons_iff. split; [tauto|]. intros; split; auto.
  - assert (P c) by (apply HP; lia). split; auto. intros _.
    destruct (c <? 2048) eqn:E2; [|destruct (c <? 65536) eqn:E3]; repeat constructor; apply HP; lia.
Qed.

Lemma plain_bytes : forall l, plain (as_bytes l) <-> plain l.
Proof. intros. apply Forall_flat_map_bytes. intros; lia. Qed.

Lemma as_bytes_in : forall c l, c < 128 -> In c (as_bytes l) <-> In c l.
Proof.
  intros c l Hc. split; intros H.
  - destruct (in_dec N.eq_dec c l) as [|N]; auto. exfalso.
    assert (Forall (fun x => x <> c) (as_bytes l)) as X.
    { apply Forall_flat_map_bytes; [intros; lia|]. apply Forall_forall. intros x Hx ->. auto. }
    rewrite Forall_forall in X. apply (X c H). auto.
  - unfold as_bytes. apply in_flat_map. exists c. split; auto. rewrite utf8_char_ascii by auto. simpl. auto.
Qed.

Lemma folded_bytes : forall l, folded (as_bytes l) <-> folded l.
Proof.
  intros l. unfold folded.
  assert ((exists w l', as_bytes l = w :: l' /\ (w = 32 \/ w = 9)) <->
          (exists w l', l = w :: l' /\ (w = 32 \/ w = 9))) as ->.
  { destruct l as [|c l]; [simpl; split; intros (? & ? & H & _); discriminate|]. split.
    - intros (w & l' & H & X). exists c, l. split; auto.
      destruct (c <? 128) eqn:E.
      + rewrite as_bytes_cons, utf8_char_ascii in H by lia. simpl in H. inv H. auto.
      + exfalso. assert (Forall (fun x => 128 <= x) (as_bytes [c])) as Y.
        { apply Forall_flat_map_bytes; auto. constructor; auto. lia. }
        rewrite as_bytes_cons in *. rewrite app_nil_r in Y.
        pose proof (utf8_char_nonempty c). destruct (utf8_char c); [congruence|].
        simpl in H. inv H. inv Y. lia.
    - intros (w & l' & H & X). inv H. exists w, (as_bytes l'). split; auto.
      rewrite as_bytes_cons, utf8_char_ascii by lia. auto. }
  assert ((exists c, In c (as_bytes l) /\ c <> 32 /\ c <> 9) <-> (exists c, In c l /\ c <> 32 /\ c <> 9)) as ->; [|tauto].
  split; intros (c & H1 & H2).
  - destruct (Exists_dec (fun c => c <> 32 /\ c <> 9) l) as [E|E].
    { intros x. destruct (N.eq_dec x 32), (N.eq_dec x 9); auto; right; lia. }
    + apply Exists_exists in E. destruct E as (x & E1 & E2). exists x. auto.
    + exfalso. assert (Forall (fun x => x = 32 \/ x = 9) l) as X.
      { apply Forall_forall. intros x Hx. destruct (N.eq_dec x 32), (N.eq_dec x 9); auto.
        exfalso. apply E. apply Exists_exists. exists x. auto. }
      assert (as_bytes l = l) as Y.
      { clear - X. induction X; auto. rewrite as_bytes_cons, IHX, utf8_char_ascii by lia. auto. }
      rewrite Y in H1. rewrite Forall_forall in X. apply X in H1. lia.
  - destruct (c <? 128) eqn:E.
    + exists c. split; auto. apply as_bytes_in; auto. lia.
    + assert (Forall (fun x => 128 <= x) (utf8_char c)) as Y.
      { rewrite <- (app_nil_r (utf8_char c)). apply (Forall_flat_map_bytes (fun x => 128 <= x)) with (l := [c]); auto.
        constructor; auto. lia. }
      pose proof (utf8_char_nonempty c). destruct (utf8_char c) as [|b bs] eqn:Eb; [congruence|].
      exists b. split; [|inv Y; lia]. unfold as_bytes. apply in_flat_map. exists c. split; auto. rewrite Eb. simpl. auto.
Qed.

Lemma field_body_lines : forall first more, no_cr first -> Forall no_cr more ->
  field_body (unlines (as_bytes first) (map as_bytes more)) <->
  plain first /\ Forall (fun l => plain l /\ folded l) more.
Proof.
  intros first more H1 H2. rewrite <- field_body_ok_iff. unfold field_body_ok.
  rewrite split_crlf_complete.
  - simpl. rewrite !andb_true_iff, plain_iff, body_lines_ok_false, plain_bytes, Forall_map.
    assert (Forall (fun x => plain (as_bytes x) /\ folded (as_bytes x)) more <->
            Forall (fun l => plain l /\ folded l) more) as ->; [|tauto].
    split; apply Forall_impl; intros l; rewrite plain_bytes, folded_bytes; auto.
  - unfold no_cr. rewrite as_bytes_in; auto. lia.
  - rewrite Forall_map. eapply Forall_impl; [|exact H2]. unfold no_cr. intros x Hx. rewrite as_bytes_in; auto. lia.
Qed.

Lemma unlines_snoc : forall first more l, unlines first more ++ CRLF ++ l = unlines first (more ++ [l]).
Proof.
  intros. unfold unlines. rewrite map_app, concat_app. simpl. rewrite app_nil_r, <- app_assoc. auto.
Qed.

Lemma unlines_app : forall first more more',
  unlines (unlines first more) more' = unlines first (more ++ more').
Proof. intros. unfold unlines. rewrite map_app, concat_app, app_assoc. auto. Qed.

Lemma is_continuation_iff : forall l, is_continuation_line l = true <->
  exists w l', l = w :: l' /\ (w = 32 \/ w = 9).
Proof.
  intros [|c l]; unfold is_continuation_line, starts_with, SP, TAB.
  - split; [discriminate|intros (? & ? & H & _); discriminate].
  - split; [intros H; exists c, l; split; auto; lia|intros (w & l' & H & X); inv H; lia].
Qed.

Lemma split_header_field_spec : forall l n v,
  split_header_field l = Some (n, v) <->
  exists first, l = n ++ [58] ++ first /\ field_name n /\ v = as_bytes first.
Proof.
  intros l n v. unfold split_header_field. pose proof (split_once_spec 58 l) as H.
  destruct (split_once 58 l) as [[a b]|].
  - destruct H as [-> H]. destruct (field_name_new a) as [a'|] eqn:E.
    + apply field_name_new_spec in E. destruct E as [-> E]. split.
      * intros X. injection X as <- <-. exists b. auto.
      * intros (first & X1 & X2 & ->). assert (~ In 58 n) as Hn.
        { destruct X2 as [_ X2]. rewrite Forall_forall in X2. intros Y. apply X2 in Y. unfold ftext in Y. lia. }
        pose proof (split_once_app 58 a b H) as Y1. pose proof (split_once_app 58 n first Hn) as Y2.
        simpl in X1. rewrite X1 in Y1. rewrite Y1 in Y2. inv Y2. auto.
    + split; [discriminate|]. intros (first & X1 & X2 & ->). exfalso.
      assert (~ In 58 n) as Hn.
      { destruct X2 as [_ X2]. rewrite Forall_forall in X2. intros Y. apply X2 in Y. unfold ftext in Y. lia. }
      pose proof (split_once_app 58 a b H) as Y1. pose proof (split_once_app 58 n first Hn) as Y2.
      simpl in X1. rewrite X1 in Y1. rewrite Y1 in Y2. inv Y2.
      assert (field_name_new n = Some n) by (apply field_name_new_spec; auto). congruence.
  - split; [discriminate|]. intros (first & -> & _). exfalso. apply H. apply in_or_app. simpl. auto.
Qed.

Lemma name_not_continuation : forall n first, field_name n -> is_continuation_line (n ++ [58] ++ first) = false.
Proof.
  intros [|c n] first [H1 H2]; [congruence|]. inv H2. unfold is_continuation_line, starts_with, SP, TAB. simpl.
  unfold ftext in H3. lia.
Qed.

Definition fields_lines (fields : list FieldText) : list str := flat_map field_text_lines fields.

Lemma fields_lines_cons : forall f fs, fields_lines (f :: fs) = field_text_lines f ++ fields_lines fs.
Proof. reflexivity. Qed.

Lemma field_body_new_unlines : forall first more v, no_cr first -> Forall no_cr more ->
  v = unlines (as_bytes first) (map as_bytes more) ->
  (field_body_new v = Some v /\ plain first /\ Forall (fun l => plain l /\ folded l) more)
  \/ (field_body_new v = None /\ ~ (plain first /\ Forall (fun l => plain l /\ folded l) more)).
Proof.
  intros first more v H1 H2 ->. pose proof (field_body_lines first more H1 H2) as X.
  rewrite <- field_body_ok_iff in X. unfold field_body_new.
  destruct (field_body_ok _).
  - left. split; auto. tauto.
  - right. split; auto. rewrite <- X. discriminate.
Qed.

(** [rlines] are the lines still to be processed; the current field consists of
    [name], [first] and [more] so far *)
Lemma parse_lines_complete : forall more2 fields name first more,
  field_text_ok (name, first, more ++ more2) -> Forall field_text_ok fields ->
  parse_lines name (unlines (as_bytes first) (map as_bytes more)) (more2 ++ fields_lines fields)
  = Some (field_text_value (name, first, more ++ more2) :: map field_text_value fields).
Proof.
  assert (forall name first more, field_text_ok (name, first, more) ->
    let v := unlines (as_bytes first) (map as_bytes more) in field_body_new v = Some v) as Body.
  { intros name first more (H1 & H2 & H3) v.
    destruct (field_body_new_unlines first more v) as [[X _]|[_ X]]; auto.
    - apply plain_no_cr; auto.
    - eapply Forall_impl; [|exact H3]. intros x [Hx _]. apply plain_no_cr; auto.
    - exfalso. auto. }
  intros more2 fields. revert more2.
  induction fields as [|[[n2 f2] m2] fields IHf].
  - induction more2 as [|l more2 IH]; intros name first more Hok Hf.
    + simpl. rewrite app_nil_r in *. rewrite (Body name) by auto. auto.
    + rewrite <- app_comm_cons. cbn [parse_lines].
      replace (is_continuation_line l) with true.
      2:{ symmetry. destruct Hok as (_ & _ & Hm). apply Forall_app in Hm. destruct Hm as [_ Hm]. inv Hm.
          apply is_continuation_iff. destruct H1 as [_ [H1 _]]. auto. }
      rewrite unlines_snoc. replace (map as_bytes more ++ [as_bytes l]) with (map as_bytes (more ++ [l])) by (rewrite map_app; auto).
      rewrite IH; auto; rewrite <- app_assoc; auto.
  - induction more2 as [|l more2 IH]; intros name first more Hok Hf.
    + rewrite app_nil_r in *. apply Forall_cons_iff in Hf. destruct Hf as [Hf1 Hf2].
      rewrite fields_lines_cons. cbn [field_text_lines]. simpl app. cbn [parse_lines].
      pose proof Hf1 as (N1 & N2 & N3).
      change (n2 ++ 58 :: f2) with (n2 ++ [58] ++ f2).
      rewrite name_not_continuation by auto.
      assert (split_header_field (n2 ++ [58] ++ f2) = Some (n2, as_bytes f2)) as ->
        by (apply split_header_field_spec; eauto).
      rewrite (Body name) by auto.
      replace (as_bytes f2) with (unlines (as_bytes f2) (map as_bytes [])) by (apply app_nil_r).
      rewrite (IHf m2 n2 f2 []) by auto. auto.
    + rewrite <- app_comm_cons. cbn [parse_lines].
      replace (is_continuation_line l) with true.
      2:{ symmetry. destruct Hok as (_ & _ & Hm). apply Forall_app in Hm. destruct Hm as [_ Hm]. inv Hm.
          apply is_continuation_iff. destruct H1 as [_ [H1 _]]. auto. }
      rewrite unlines_snoc. replace (map as_bytes more ++ [as_bytes l]) with (map as_bytes (more ++ [l])) by (rewrite map_app; auto).
      rewrite IH; auto; rewrite <- app_assoc; auto.
Qed.

(** Soundness.  Lines given by [str::lines] have no LF; a CR in any of them makes
    the corresponding body invalid, except that CR LF at the very place of a line
    joint cannot occur. *)
Lemma field_body_no_lf_joint : forall first more,
  ~ In 10 first -> Forall (fun l => ~ In 10 l) more ->
  field_body (unlines (as_bytes first) (map as_bytes more)) -> no_cr first /\ Forall no_cr more.
Proof.
  intros first more H1 H2 (f & m & E & P1 & P2).
  assert (forall more first, ~ In 10 first -> Forall (fun l => ~ In 10 l) more ->
    forall m f, unlines first more = unlines f m -> plain f -> Forall (fun l => plain l /\ folded l) m ->
    no_cr first /\ Forall no_cr more) as X.
  { clear. induction more as [|l more IHm].
    - induction first as [|b first IHf]; intros H1 H2 m f E P1 P2.
      + split; auto.
      + destruct f as [|x f].
        * destruct m as [|y m]; [discriminate|]. rewrite unlines_nil in E. unfold unlines in E. simpl in E.
          rewrite app_nil_r in E. inv E. exfalso. apply H1. right. simpl. auto.
        * rewrite !unlines_cons in E. injection E as <- E. inversion P1; subst.
          destruct (IHf (fun X => H1 (or_intror X)) H2 m f E) as [I1 I2]; auto.
          split; auto. intros [X|X]; [lia|auto].
    - induction first as [|b first IHf]; intros H1 H2 m f E P1 P2.
      + apply Forall_cons_iff in H2. destruct H2 as [H2 H3].
        rewrite unlines_nil in E. destruct f as [|x f].
        * destruct m as [|y m]; [discriminate|]. rewrite unlines_nil in E. injection E as E.
          apply Forall_cons_iff in P2. destruct P2 as [[P2 _] P3].
          destruct (IHm l H2 H3 m y E P2 P3). split; auto.
        * rewrite unlines_cons in E. injection E as <- E. inversion P1; subst. lia.
      + destruct f as [|x f].
        * destruct m as [|y m]; [discriminate|]. rewrite unlines_nil, unlines_cons in E. injection E as -> E.
          destruct first as [|b2 first].
          -- rewrite unlines_nil in E. discriminate.
          -- rewrite unlines_cons in E. injection E as -> E. exfalso. apply H1. right. simpl. auto.
        * rewrite !unlines_cons in E. injection E as <- E. inversion P1; subst.
          destruct (IHf (fun X => H1 (or_intror X)) H2 m f E) as [I1 I2]; auto.
          split; auto. intros [X|X]; [lia|auto]. }
  destruct (X (map as_bytes more) (as_bytes first)) with (m := m) (f := f) as [Y1 Y2]; auto.
  - rewrite as_bytes_in; auto. lia.
  - rewrite Forall_map. eapply Forall_impl; [|exact H2]. intros l Hl. cbv beta. rewrite as_bytes_in; auto. lia.
  - split.
    + unfold no_cr in *. rewrite as_bytes_in in Y1; auto. lia.
    + rewrite Forall_map in Y2. eapply Forall_impl; [|exact Y2]. unfold no_cr. intros l Hl. cbv beta in Hl.
      rewrite as_bytes_in in Hl; auto. lia.
Qed.

Lemma parse_lines_sound : forall lines name first more hs,
  field_name name -> ~ In 10 first -> Forall (fun l => ~ In 10 l) more ->
  Forall (fun l => is_continuation_line l = true) more ->
  Forall (fun l => ~ In 10 l) lines ->
  parse_lines name (unlines (as_bytes first) (map as_bytes more)) lines = Some hs ->
  exists more2 fields, lines = more2 ++ fields_lines fields
    /\ field_text_ok (name, first, more ++ more2) /\ Forall field_text_ok fields
    /\ hs = field_text_value (name, first, more ++ more2) :: map field_text_value fields.
Proof.
  assert (forall name first more v, field_name name -> ~ In 10 first -> Forall (fun l => ~ In 10 l) more ->
    field_body_new (unlines (as_bytes first) (map as_bytes more)) = Some v ->
    field_text_ok (name, first, more) /\ v = unlines (as_bytes first) (map as_bytes more)) as Body.
  { intros name first more v Hn H1 H2 H. apply field_body_new_spec in H. destruct H as [-> H]. split; auto.
    destruct (field_body_no_lf_joint first more H1 H2 H) as [X1 X2].
    apply field_body_lines in H; auto. split; auto. }
  induction lines as [|line lines IH]; intros name first more hs Hn H1 H2 Hc H3; cbn [parse_lines].
  - destruct (field_body_new (unlines (as_bytes first) (map as_bytes more))) as [v|] eqn:E; [|discriminate].
    intros X. injection X as <-. destruct (Body name first more v Hn H1 H2 E) as [B1 ->].
    exists [], []. simpl. rewrite app_nil_r. auto.
  - apply Forall_cons_iff in H3. destruct H3 as [H3 H4].
    destruct (is_continuation_line line) eqn:Ec.
    + rewrite unlines_snoc.
      replace (map as_bytes more ++ [as_bytes line]) with (map as_bytes (more ++ [line])) by (rewrite map_app; auto).
      intros X. apply IH in X; auto.
      2,3: apply Forall_app; split; auto.
      destruct X as (more2 & fields & X1 & X2 & X3 & X4). exists (line :: more2), fields.
      rewrite <- app_assoc in *. simpl in *. split; [congruence|]. auto.
    + destruct (split_header_field line) as [[n2 v2]|] eqn:E2; [|discriminate].
      apply split_header_field_spec in E2. destruct E2 as (f2 & -> & N2 & ->).
      destruct (field_body_new (unlines (as_bytes first) (map as_bytes more))) as [v|] eqn:E; [|discriminate].
      destruct (Body name first more v Hn H1 H2 E) as [B1 ->].
      destruct (parse_lines n2 (as_bytes f2) lines) as [hs'|] eqn:E3; [|discriminate].
      intros X. injection X as <-.
      replace (as_bytes f2) with (unlines (as_bytes f2) (map as_bytes [])) in E3 by (apply app_nil_r).
      apply IH in E3; auto.
      2:{ intros Y. apply H3. apply in_or_app. right. simpl. auto. }
      destruct E3 as (more2 & fields & X1 & X2 & X3 & ->).
      exists [], ((n2, f2, more2) :: fields). rewrite app_nil_r. simpl in X2.
      split; [rewrite X1; reflexivity|]. split; auto.
Qed.

Lemma str_lines_no_lf : forall s, Forall (fun l => ~ In 10 l) (str_lines s).
Proof.
  intros s. remember (length s) as n eqn:En. assert (length s <= n)%nat as L by lia. clear En. revert s L.
  induction n as [|n IH]; intros s L.
  - destruct s; [constructor|simpl in L; lia].
  - destruct (lf_cases s) as [H|(a & b & -> & H)].
    + destruct s as [|c s]; [constructor|]. rewrite str_lines_last; auto. discriminate.
    + rewrite app_length in L. simpl in L. rewrite str_lines_term by auto. constructor.
      * destruct (strip_cr_cases a) as [(a' & -> & ->)| ->]; auto.
        intros X. apply H. apply in_or_app. auto.
      * apply IH. lia.
Qed.

Lemma plain_clean : forall l, plain l -> clean l.
Proof.
  intros l H. unfold plain in H. rewrite Forall_forall in H. split; intros X; apply H in X; lia.
Qed.

Lemma fields_lines_clean : forall fields, Forall field_text_ok fields -> Forall clean (fields_lines fields).
Proof.
  induction 1 as [|[[n f] m] fields (H1 & H2 & H3) H IH]; simpl; constructor.
  - destruct H1 as [_ H1]. rewrite Forall_forall in H1. pose proof (plain_clean _ H2) as [C1 C2].
    split; intros X; apply in_app_or in X; destruct X as [X|[X|X]]; try discriminate; auto;
      apply H1 in X; unfold ftext in X; lia.
  - apply Forall_app. split; auto. eapply Forall_impl; [|exact H3]. intros x [Hx _]. apply plain_clean; auto.
Qed.

Theorem from_str_spec : forall s hs,
  header_fields_from_str s = Some hs <->
  exists fields, fields <> [] /\ Forall field_text_ok fields
    /\ lines_text (fields_lines fields) s /\ hs = map field_text_value fields.
Proof.
  intros s hs. unfold header_fields_from_str. split.
  - pose proof (str_lines_sound (length s) s (le_n _)) as T. pose proof (str_lines_no_lf s) as NL.
    destruct (str_lines s) as [|first lines] eqn:E; [discriminate|].
    destruct (is_continuation_line first); [discriminate|].
    destruct (split_header_field first) as [[n v]|] eqn:E2; [|discriminate].
    apply split_header_field_spec in E2. destruct E2 as (f & -> & N & ->).
    destruct (parse_lines n (as_bytes f) lines) as [hs'|] eqn:E3; [|discriminate].
    apply Forall_cons_iff in NL. destruct NL as [NL1 NL2].
    replace (as_bytes f) with (unlines (as_bytes f) (map as_bytes [])) in E3 by (apply app_nil_r).
    apply parse_lines_sound in E3; auto.
    2:{ intros Y. apply NL1. apply in_or_app. right. simpl. auto. }
    destruct E3 as (more2 & fields & X1 & X2 & X3 & ->). simpl in *.
    intros X. injection X as <-. exists ((n, f, more2) :: fields). split; [discriminate|]. split; [constructor; auto|].
    split; auto. rewrite X1 in T. exact T.
  - intros (fields & H1 & H2 & H3 & ->). rewrite (str_lines_complete (fields_lines fields)); auto.
    2: apply fields_lines_clean; auto.
    destruct fields as [|[[n f] m] fields]; [congruence|]. apply Forall_cons_iff in H2. destruct H2 as [H2 H4].
    pose proof H2 as (N1 & N2 & N3).
    rewrite fields_lines_cons. cbn [field_text_lines]. simpl app.
    change (n ++ 58 :: f) with (n ++ [58] ++ f). cbv iota. rewrite name_not_continuation by auto.
    assert (split_header_field (n ++ [58] ++ f) = Some (n, as_bytes f)) as ->
      by (apply split_header_field_spec; eauto).
    replace (as_bytes f) with (unlines (as_bytes f) (map as_bytes [])) by (apply app_nil_r).
    rewrite (parse_lines_complete m fields n f []) by auto. reflexivity.
Qed.

Lemma field_text_value_valid : forall f, field_text_ok f ->
  field_name (fst (field_text_value f)) /\ field_body (snd (field_text_value f)).
Proof.
  intros [[n f] m] (H1 & H2 & H3). simpl. split; auto. apply field_body_lines; auto.
  - apply plain_no_cr; auto.
  - eapply Forall_impl; [|exact H3]. intros x [Hx _]. apply plain_no_cr; auto.
Qed.

(** every valid field with a UTF-8 body is the value of some text *)
Lemma utf8_split_crlf : forall s f m, as_bytes s = unlines f m -> Forall is_scalar s ->
  exists f' m', s = unlines f' m' /\ as_bytes f' = f /\ map as_bytes m' = m.
Proof.
  assert (forall c s b r, is_scalar c -> utf8_char c ++ s = b :: r -> b < 128 -> c = b /\ s = r) as Hd.
  { intros c s b r Hc E Hb. unfold utf8_char in E. repeat dmatch_hyp E; simpl in E; inv E; auto; lia. }
  assert (forall n s f m, (length s <= n)%nat -> as_bytes s = unlines f m -> Forall is_scalar s ->
    exists f' m', s = unlines f' m' /\ as_bytes f' = f /\ map as_bytes m' = m) as X.
  2:{ intros. apply (X (length s)); auto. }
  induction n as [|n IH]; intros s f m L E Hs.
  - destruct s; [|simpl in L; lia]. simpl in E. destruct f; [|discriminate]. destruct m; [|discriminate].
    exists [], []. auto.
  - destruct s as [|c s].
    { simpl in E. destruct f; [|discriminate]. destruct m; [|discriminate]. exists [], []. auto. }
    apply Forall_cons_iff in Hs. destruct Hs as [Hc Hs]. rewrite as_bytes_cons in E. simpl in L.
    destruct f as [|b f].
    + destruct m as [|l m]. { exfalso. pose proof (utf8_char_nonempty c). destruct (utf8_char c); easy. }
      rewrite unlines_nil in E. apply Hd in E; auto; [|lia]. destruct E as [-> E].
      destruct s as [|c2 s]; [discriminate|]. apply Forall_cons_iff in Hs. destruct Hs as [Hc2 Hs].
      rewrite as_bytes_cons in E. apply Hd in E; auto; [|lia]. destruct E as [-> E]. simpl in L.
      destruct (IH s l m) as (f' & m' & -> & <- & <-); auto; [lia|].
      exists [], (f' :: m'). auto.
    + (* the first character lies entirely in the first line *)
      assert (exists g, b :: f = utf8_char c ++ g /\ as_bytes s = unlines g m) as (g & G1 & G2).
      { unfold utf8_char in *. rewrite unlines_cons in E.
        destruct (c <? 128) eqn:E1. { simpl in E. injection E as <- E. exists f. auto. }
        destruct (c <? 2048) eqn:E2.
        { simpl in E. injection E as <- E. destruct f as [|b2 f].
          - destruct m; [discriminate|]. rewrite unlines_nil in E. injection E as E _. lia.
          - rewrite unlines_cons in E. injection E as <- E. exists f. auto. }
        destruct (c <? 65536) eqn:E3.
        { simpl in E. injection E as <- E. destruct f as [|b2 f].
          - destruct m; [discriminate|]. rewrite unlines_nil in E. injection E as E _. lia.
          - rewrite unlines_cons in E. injection E as <- E. destruct f as [|b3 f].
            + destruct m; [discriminate|]. rewrite unlines_nil in E. injection E as E _. lia.
            + rewrite unlines_cons in E. injection E as <- E. exists f. auto. }
        simpl in E. injection E as <- E. destruct f as [|b2 f].
        - destruct m; [discriminate|]. rewrite unlines_nil in E. injection E as E _. lia.
        - rewrite unlines_cons in E. injection E as <- E. destruct f as [|b3 f].
          + destruct m; [discriminate|]. rewrite unlines_nil in E. injection E as E _. lia.
          + rewrite unlines_cons in E. injection E as <- E. destruct f as [|b4 f].
            * destruct m; [discriminate|]. rewrite unlines_nil in E. injection E as E _. lia.
            * rewrite unlines_cons in E. injection E as <- E. exists f. auto. }
      destruct (IH s g m) as (f' & m' & -> & <- & <-); auto; [lia|].
      exists (c :: f'), m'. rewrite G1. auto.
Qed.

Lemma lines_text_lines : forall eol ls, eol = [10] \/ eol = [13; 10] ->
  lines_text ls (flat_map (fun l => l ++ eol) ls).
Proof.
  intros eol ls H. induction ls; simpl; [constructor|]. rewrite <- app_assoc. constructor; auto.
Qed.

Lemma unlines_eol : forall first more,
  unlines first more ++ [13; 10] = flat_map (fun l => l ++ [13; 10]) (first :: more).
Proof.
  intros first more. unfold unlines. simpl. rewrite <- !app_assoc. f_equal.
  induction more as [|l more IH]; simpl; auto. rewrite <- !app_assoc. rewrite IH. reflexivity.
Qed.

Lemma without_cr_id : forall l, no_cr l -> without_cr l = l.
Proof.
  intros l H. induction l as [|c l IH]; auto. simpl. rewrite IH by (intros X; apply H; simpl; auto).
  destruct (c =? 13) eqn:E; auto. exfalso. apply H. simpl. left. lia.
Qed.

Lemma without_cr_app : forall a b, without_cr (a ++ b) = without_cr a ++ without_cr b.
Proof. intros. apply filter_app. Qed.

Lemma unlines_eol_lf : forall first more, no_cr first -> Forall no_cr more ->
  without_cr (unlines first more) ++ [10] = flat_map (fun l => l ++ [10]) (first :: more).
Proof.
  intros first more H1 H2. unfold unlines. rewrite without_cr_app, without_cr_id by auto. simpl.
  rewrite <- !app_assoc. f_equal.
  induction H2 as [|l more H2 H3 IH]; simpl; auto. rewrite without_cr_app, without_cr_id, <- !app_assoc by auto.
  rewrite IH. reflexivity.
Qed.

Theorem write_parse : forall (fields : list (str * str)),
  fields <> [] ->
  Forall (fun f => field_name (fst f) /\ field_body (as_bytes (snd f)) /\ Forall is_scalar (snd f)) fields ->
  header_fields_from_str (flat_map (fun f => fst f ++ [58] ++ snd f ++ [13; 10]) fields)
  = Some (map (fun f => (fst f, as_bytes (snd f))) fields)
  /\ header_fields_from_str (flat_map (fun f => fst f ++ [58] ++ without_cr (snd f) ++ [10]) fields)
  = Some (map (fun f => (fst f, as_bytes (snd f))) fields).
Proof.
  intros fields Hn H.
  assert (exists ft, Forall field_text_ok ft /\
    map (fun f => (fst f, as_bytes (snd f))) fields = map field_text_value ft /\
    flat_map (fun f => fst f ++ [58] ++ snd f ++ [13; 10]) fields = flat_map (fun l => l ++ [13; 10]) (fields_lines ft) /\
    flat_map (fun f => fst f ++ [58] ++ without_cr (snd f) ++ [10]) fields = flat_map (fun l => l ++ [10]) (fields_lines ft))
    as (ft & F1 & F2 & F3 & F4).
  { clear Hn. induction H as [|[n s] fields (H1 & H2 & H3) H (ft & I1 & I2 & I3 & I4)].
    - exists []. auto.
    - simpl in H1, H2, H3. destruct H2 as (f & m & E & P1 & P2).
      destruct (utf8_split_crlf s f m E H3) as (f' & m' & -> & <- & <-).
      rewrite Forall_map in P2. rewrite plain_bytes in P1.
      assert (Forall (fun l => plain l /\ folded l) m') as P3.
      { eapply Forall_impl; [|exact P2]. intros x Hx. cbv beta in Hx. rewrite plain_bytes, folded_bytes in Hx. auto. }
      assert (Forall no_cr m') as P4.
      { eapply Forall_impl; [|exact P3]. intros x [Hx _]. apply plain_no_cr; auto. }
      exists ((n, f', m') :: ft). split; [constructor; auto; split; auto|].
      split; [cbn [map fst snd]; rewrite I2, E; reflexivity|].
      rewrite fields_lines_cons, !flat_map_app, <- I3, <- I4. cbn [flat_map fst snd].
      split; f_equal.
      + rewrite unlines_eol. simpl. rewrite <- !app_assoc. reflexivity.
      + rewrite unlines_eol_lf by (auto using plain_no_cr). simpl. rewrite <- !app_assoc. reflexivity. }
  rewrite F2, F3, F4. split; apply from_str_spec; exists ft;
    (split; [intros ->; destruct fields; [congruence|discriminate]|]); repeat split; auto; apply lines_text_lines; auto.
Qed.
