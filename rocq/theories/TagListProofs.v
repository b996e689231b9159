(** Proofs about src/tag_list.rs. *)

From Verif Require Import Lib Utf8 Canon Header Parse QP Base64 TagList SpecText SpecHeader SpecTag
  Utf8Proofs QPProofs QPDecode HeaderProofs.

#[local] Hint Resolve ofws_nil : core.

Lemma is_alpha_iff : forall c, is_alpha c = true <-> alpha c.
Proof. intros. unfold is_alpha, is_ascii_alphabetic, is_ascii_upper, is_ascii_lower, in_range, alpha. lia. Qed.
Lemma is_alphanum_iff : forall c, is_alphanum c = true <-> alnum_ c.
Proof.
  intros. unfold is_alphanum, is_ascii_alphanumeric, is_ascii_digit, alnum_. rewrite <- is_alpha_iff.
  unfold is_alpha, in_range. rewrite !orb_true_iff, N.eqb_eq, andb_true_iff, !N.leb_le. tauto.
Qed.
Lemma is_tval_iff : forall c, is_tval_char c = true <-> valchar c.
Proof. intros. unfold is_tval_char, in_range, is_ascii, valchar. lia. Qed.

(** ** Names *)

Lemma strip_prefix_char_some : forall c s t, strip_prefix_char c s = Some t <-> s = c :: t.
Proof.
  intros c [|x s] t; unfold strip_prefix_char; simpl; [split; discriminate|].
  destruct (c =? x) eqn:E.
  - apply N.eqb_eq in E. subst. split; intros H; inv H; auto.
  - split; [discriminate|]. intros H. inv H. rewrite N.eqb_refl in E. discriminate.
Qed.

Definition not_alnum (t : str) : Prop := match t with [] => True | c :: _ => ~ alnum_ c end.

Lemma strip_tag_name_sound : forall s t n, strip_tag_name s = Some (t, n) ->
  s = n ++ t /\ tag_name_text n /\ not_alnum t.
Proof.
  intros [|c s] t n; unfold strip_tag_name; simpl; [discriminate|].
  destruct (is_alpha c) eqn:E; [|discriminate]. intros H.
  destruct (trim_start_spec is_alphanum s) as (a & H1 & H2 & H3).
  remember (trim_start is_alphanum s) as r. injection H as <- <-. subst s.
  change (c :: a ++ r) with ((c :: a) ++ r). rewrite strip_suffix_app. split; auto. split.
  - exists c, a. split; auto. split; [apply is_alpha_iff; auto|].
    apply (forallb_Forall_iff _ _ _ is_alphanum_iff). auto.
  - destruct r as [|x r]; simpl; auto. rewrite <- is_alphanum_iff.
    destruct H3 as [H3|(x' & r' & X & Y)]; [discriminate|]. inv X. congruence.
Qed.

Lemma strip_tag_name_complete : forall n t, tag_name_text n -> not_alnum t ->
  strip_tag_name (n ++ t) = Some (t, n).
Proof.
  intros n t (c & n' & -> & H1 & H2) Ht. unfold strip_tag_name. simpl.
  apply is_alpha_iff in H1. rewrite H1.
  rewrite trim_start_app_all by (apply (forallb_Forall_iff _ _ _ is_alphanum_iff); auto).
  assert (trim_start is_alphanum t = t) as ->.
  { destruct t as [|x t]; auto. apply trim_start_nop. simpl in Ht. rewrite <- is_alphanum_iff in Ht.
    destruct (is_alphanum x); congruence. }
  change (c :: n' ++ t) with ((c :: n') ++ t). rewrite strip_suffix_app. auto.
Qed.

Lemma is_tag_name_spec : forall s, is_tag_name s = true <-> tag_name_text s.
Proof.
  intros s. unfold is_tag_name. split.
  - destruct (strip_tag_name s) as [[t n]|] eqn:E; [|discriminate].
    rewrite is_nil_true. intros ->. apply strip_tag_name_sound in E. destruct E as (-> & H & _).
    rewrite app_nil_r. auto.
  - intros H. pose proof (strip_tag_name_complete s [] H I) as X. rewrite app_nil_r in X. rewrite X. auto.
Qed.

Lemma ofws_not_alnum : forall f t, ofws f -> not_alnum t -> not_alnum (f ++ t).
Proof.
  intros [|c f] t Hf Ht; auto. simpl. intros H. apply (ofws_head f c []); auto.
  unfold alnum_, alpha in H. simpl. lia.
Qed.

Lemma name_not_ws : forall n t, tag_name_text n -> not_ws (n ++ t).
Proof. intros n t (c & n' & -> & H & _). unfold alpha in H. simpl. lia. Qed.

Lemma name_equals_sound : forall s t n, strip_tag_name_and_equals s = Some (t, n) ->
  exists f1 f2, ofws f1 /\ ofws f2 /\ tag_name_text n /\ s = f1 ++ n ++ f2 ++ [61] ++ t.
Proof.
  intros s t n. unfold strip_tag_name_and_equals. intros H.
  destruct (skip_fws_spec s) as (f1 & F1 & F2).
  destruct (strip_tag_name (skip_fws s)) as [[s1 n']|] eqn:E1; [|discriminate].
  apply strip_tag_name_sound in E1. destruct E1 as (E1 & E2 & _).
  destruct (skip_fws_spec s1) as (f2 & G1 & G2).
  destruct (strip_prefix_char 61 (skip_fws s1)) as [s2|] eqn:E3; [|discriminate].
  apply strip_prefix_char_some in E3. injection H as <- <-.
  exists f1, f2. repeat split; auto. rewrite F2, E1, G2, E3. reflexivity.
Qed.

Lemma name_equals_complete : forall f1 f2 n t, ofws f1 -> ofws f2 -> tag_name_text n ->
  strip_tag_name_and_equals (f1 ++ n ++ f2 ++ [61] ++ t) = Some (t, n).
Proof.
  intros f1 f2 n t H1 H2 Hn. unfold strip_tag_name_and_equals.
  rewrite skip_fws_app by (auto using name_not_ws).
  rewrite strip_tag_name_complete; auto.
  - rewrite skip_fws_app; auto. simpl. lia.
  - apply ofws_not_alnum; auto. simpl. unfold alnum_, alpha. lia.
Qed.

(** ** Values *)

(** more VALCHARs, each preceded by optional FWS *)
Inductive more_vals : str -> Prop :=
| mv_nil : more_vals []
| mv_cons : forall f c m, ofws f -> valchar c -> more_vals m -> more_vals (f ++ c :: m).

Lemma tag_value_more : forall v, tag_value_text v <-> exists c m, v = c :: m /\ valchar c /\ more_vals m.
Proof.
  intros v. split.
  - induction 1.
    + exists c, []. repeat split; auto. constructor.
    + destruct IHtag_value_text as (c' & m & -> & H2 & H3). exists c, (f ++ c' :: m).
      repeat split; auto. constructor; auto.
  - intros (c & m & -> & H1 & H2). revert c H1. induction H2; intros x Hx.
    + constructor. auto.
    + constructor; auto.
Qed.

Lemma more_vals_app : forall a b, more_vals a -> more_vals b -> more_vals (a ++ b).
Proof. induction 1; intros; auto. rewrite <- app_assoc. simpl. constructor; auto. Qed.

Lemma more_vals_run : forall a, Forall valchar a -> more_vals a.
Proof. induction 1; [constructor|]. apply (mv_cons []); auto. Qed.

Lemma strip_tval_sound : forall s t, strip_tval s = Some t ->
  exists c a, s = c :: a ++ t /\ valchar c /\ Forall valchar a.
Proof.
  intros [|c s] t; unfold strip_tval; simpl; [discriminate|].
  destruct (is_tval_char c) eqn:E; [|discriminate]. simpl.
  destruct (trim_start_spec is_tval_char s) as (a & H1 & H2 & H3). intros H. injection H as <-.
  exists c, a. rewrite <- H1. repeat split; auto. { apply is_tval_iff; auto. }
  apply (forallb_Forall_iff _ _ _ is_tval_iff). auto.
Qed.

Lemma strip_tvals_sound : forall fuel s t, strip_tvals fuel s = t -> exists m, s = m ++ t /\ more_vals m.
Proof.
  induction fuel as [|fuel IH]; intros s t; simpl; [intros <-; exists []; split; [auto|constructor]|].
  destruct (strip_fws s) as [s1|] eqn:E1; [|intros <-; exists []; split; [auto|constructor]].
  destruct (strip_tval s1) as [s2|] eqn:E2; [|intros <-; exists []; split; [auto|constructor]].
  apply strip_fws_some in E1. destruct E1 as (f & F1 & -> & _).
  apply strip_tval_sound in E2. destruct E2 as (c & a & -> & H1 & H2).
  intros H. apply IH in H. destruct H as (m & -> & H3).
  exists (f ++ c :: a ++ m). split.
  - rewrite <- !app_assoc. simpl. rewrite <- app_assoc. reflexivity.
  - constructor; auto; [right; auto|]. apply more_vals_app; auto. apply more_vals_run; auto.
Qed.

Lemma strip_tag_value_sound : forall s t v, strip_tag_value s = Some (t, v) ->
  s = v ++ t /\ tag_value_text v.
Proof.
  intros s t v. unfold strip_tag_value. destruct (strip_tval s) as [s1|] eqn:E; [|discriminate].
  apply strip_tval_sound in E. destruct E as (c & a & -> & H1 & H2).
  remember (strip_tvals (length s1) s1) as r eqn:Er. symmetry in Er. apply strip_tvals_sound in Er.
  destruct Er as (m & -> & H3). intros H. injection H as <- <-.
  replace (c :: a ++ m ++ r) with ((c :: a ++ m) ++ r) by (simpl; rewrite app_assoc; auto).
  rewrite strip_suffix_app. split; auto. apply tag_value_more. exists c, (a ++ m). repeat split; auto.
  apply more_vals_app; auto. apply more_vals_run; auto.
Qed.

(** what ends a tag value: optional FWS and then the end or a semicolon *)
Definition at_end (t : str) : Prop := t = [] \/ exists t', t = 59 :: t'.
Definition stop (t : str) : Prop := exists f t', ofws f /\ at_end t' /\ t = f ++ t'.

Lemma at_end_not_ws : forall t, at_end t -> not_ws t.
Proof. intros t [->|(t' & ->)]; simpl; auto. lia. Qed.

Definition not_val (t : str) : Prop := match t with [] => True | c :: _ => ~ valchar c end.

Lemma at_end_not_val : forall t, at_end t -> not_val t.
Proof. intros t [->|(t' & ->)]; simpl; auto. unfold valchar. lia. Qed.

Lemma fws_not_val : forall f t, fws f -> not_val (f ++ t).
Proof.
  intros [|c f] t H; [destruct (fws_nonempty _ H); auto|]. simpl. intros X.
  apply (ofws_head f c []); [right; auto|]. unfold valchar in X. simpl. lia.
Qed.

Lemma stop_not_val : forall t, stop t -> not_val t.
Proof.
  intros t (f & t' & [->|H] & H2 & ->); [apply at_end_not_val; auto|apply fws_not_val; auto].
Qed.

Lemma trim_not_val : forall t, not_val t -> trim_start is_tval_char t = t.
Proof.
  intros [|c t] H; auto. apply trim_start_nop. simpl in H. rewrite <- is_tval_iff in H.
  destruct (is_tval_char c); congruence.
Qed.

Lemma strip_tval_none : forall t, not_val t -> strip_tval t = None.
Proof.
  intros [|c t] H; auto. unfold strip_tval. simpl in *. rewrite <- is_tval_iff in H.
  destruct (is_tval_char c); [congruence|auto].
Qed.

(** a maximal run of VALCHARs *)
Lemma more_vals_cut : forall m, more_vals m ->
  exists a m', m = a ++ m' /\ Forall valchar a /\
    (m' = [] \/ exists f c m'', m' = f ++ c :: m'' /\ fws f /\ valchar c /\ more_vals m'').
Proof.
  induction 1 as [|f c m Hf Hc Hm (a & m' & -> & H1 & H2)].
  - exists [], []. auto.
  - destruct Hf as [->|Hf].
    + exists (c :: a), m'. auto.
    + exists [], (f ++ c :: a ++ m'). split; auto. split; auto. right. exists f, c, (a ++ m'). auto.
Qed.

Lemma val_not_ws : forall c t, valchar c -> not_ws (c :: t).
Proof. intros c t H. unfold valchar in H. simpl. lia. Qed.

Lemma trim_more_vals : forall m t, more_vals m -> stop t ->
  exists a m', m = a ++ m' /\ trim_start is_tval_char (m ++ t) = m' ++ t /\
    (m' = [] \/ exists f c m'', m' = f ++ c :: m'' /\ fws f /\ valchar c /\ more_vals m'').
Proof.
  intros m t H Ht. destruct (more_vals_cut m H) as (a & m' & -> & H1 & H2).
  exists a, m'. split; auto. split; auto.
  rewrite <- app_assoc. rewrite trim_start_app_all by (apply (forallb_Forall_iff _ _ _ is_tval_iff); auto).
  apply trim_not_val. destruct H2 as [->|(f & c & m'' & -> & F & _)]; [apply stop_not_val; auto|].
  rewrite <- app_assoc. apply fws_not_val; auto.
Qed.

Lemma strip_tvals_complete : forall fuel m t,
  (m = [] \/ exists f c m'', m = f ++ c :: m'' /\ fws f /\ valchar c /\ more_vals m'') ->
  stop t -> (length (m ++ t) <= fuel)%nat -> strip_tvals fuel (m ++ t) = t.
Proof.
  induction fuel as [|fuel IH]; intros m t Hm Ht L.
  - destruct m; [auto|simpl in L; lia].
  - destruct Hm as [->|(f & c & m'' & -> & Hf & Hc & Hm)].
    + simpl. destruct (strip_fws t) as [s1|] eqn:E; auto.
      destruct Ht as (f & t' & F & T & ->).
      assert (s1 = t') as ->.
      { destruct F as [->|F].
        - simpl in E. rewrite strip_fws_none in E by (apply at_end_not_ws; auto). discriminate.
        - rewrite strip_fws_app in E by (auto using at_end_not_ws). congruence. }
      rewrite strip_tval_none; auto. apply at_end_not_val; auto.
    + rewrite <- app_assoc. simpl. rewrite strip_fws_app by (auto using val_not_ws).
      assert (is_tval_char c = true) as Ec by (apply is_tval_iff; auto).
      unfold strip_tval. simpl. rewrite Ec. simpl.
      destruct (trim_more_vals m'' t Hm Ht) as (a & m' & -> & -> & H).
      apply IH; auto. rewrite !app_length in *. simpl in L. rewrite app_length in L.
      pose proof (fws_nonempty _ Hf). destruct f; [congruence|]. simpl in L. lia.
Qed.

Lemma strip_tag_value_complete : forall v t, tag_value_text v -> stop t ->
  strip_tag_value (v ++ t) = Some (t, v).
Proof.
  intros v t H Ht. apply tag_value_more in H. destruct H as (c & m & -> & Hc & Hm).
  unfold strip_tag_value, strip_tval. simpl.
  assert (is_tval_char c = true) as -> by (apply is_tval_iff; auto). simpl.
  destruct (trim_more_vals m t Hm Ht) as (a & m' & -> & -> & H).
  rewrite strip_tvals_complete; auto.
  change (c :: (a ++ m') ++ t) with ((c :: a ++ m') ++ t). rewrite strip_suffix_app. auto.
Qed.

Lemma stop_nil : stop [].
Proof. exists [], []. repeat split; auto. left. auto. Qed.

Lemma is_tag_value_spec : forall s, is_tag_value s = true <-> s = [] \/ tag_value_text s.
Proof.
  intros s. unfold is_tag_value. rewrite orb_true_iff, is_nil_true. split; intros [H|H]; auto.
  - right. destruct (strip_tag_value s) as [[t v]|] eqn:E; [|discriminate].
    apply is_nil_true in H. subst t. apply strip_tag_value_sound in E. destruct E as [-> E].
    rewrite app_nil_r. auto.
  - right. pose proof (strip_tag_value_complete s [] H stop_nil) as X. rewrite app_nil_r in X. rewrite X. auto.
Qed.

(** ** Tags and lists *)

Lemma strip_tag_spec_sound : forall s t tag, strip_tag_spec s = Some (t, tag) ->
  exists p, s = p ++ t /\ tag_spec_text p (tag_name tag) (tag_value tag).
Proof.
  intros s t tag. unfold strip_tag_spec.
  destruct (strip_tag_name_and_equals s) as [[s1 n]|] eqn:E1; [|discriminate].
  apply name_equals_sound in E1. destruct E1 as (f1 & f2 & F1 & F2 & Hn & ->).
  destruct (skip_fws_spec s1) as (f3 & F3 & E3).
  destruct (strip_tag_value (skip_fws s1)) as [[s2 v]|] eqn:E2.
  - apply strip_tag_value_sound in E2. destruct E2 as [E2 Hv].
    destruct (skip_fws_spec s2) as (f4 & F4 & E4). intros H. injection H as <- <-.
    exists (f1 ++ n ++ f2 ++ [61] ++ f3 ++ v ++ f4). split; [|constructor; auto].
    rewrite E3, E2. rewrite E4 at 1. rewrite <- !app_assoc. reflexivity.
  - intros H. injection H as <- <-. exists (f1 ++ n ++ f2 ++ [61] ++ f3). split; [|constructor; auto].
    rewrite E3 at 1. rewrite <- !app_assoc. reflexivity.
Qed.

Lemma strip_tag_spec_complete : forall p n v t, tag_spec_text p n v -> at_end t ->
  strip_tag_spec (p ++ t) = Some (t, mkTag n v).
Proof.
  intros p n v t H Ht. unfold strip_tag_spec. inv H; rewrite <- !app_assoc; rewrite name_equals_complete by auto.
  - rewrite skip_fws_app by (auto using at_end_not_ws).
    unfold strip_tag_value. rewrite strip_tval_none by (apply at_end_not_val; auto). auto.
  - rewrite skip_fws_app; auto.
    + rewrite strip_tag_value_complete; auto.
      * rewrite skip_fws_app; auto using at_end_not_ws.
      * exists f4, t. auto.
    + apply tag_value_more in H5. destruct H5 as (c & m & -> & Hc & _). apply val_not_ws; auto.
Qed.

Lemma strip_tag_spec_nil : strip_tag_spec [] = None.
Proof. reflexivity. Qed.

Definition pairs_of (tags : list TagSpec) : list (str * str) := map (fun t => (tag_name t, tag_value t)) tags.

(** (";" tag-spec)* *)
Inductive more_tags : str -> list (str * str) -> Prop :=
| mt_nil : more_tags [] []
| mt_cons : forall p n v s tags, tag_spec_text p n v -> more_tags s tags ->
    more_tags (59 :: p ++ s) ((n, v) :: tags).

Lemma tag_list_more : forall s tags, tag_list_text s tags <->
  exists p n v m e more, s = p ++ m ++ e /\ tags = (n, v) :: more /\ tag_spec_text p n v /\ more_tags m more
    /\ (e = [] \/ e = [59]).
Proof.
  intros s tags. split.
  - induction 1 as [s n v H|s n v H|s n v t tags H H2 (p & n' & v' & m & e & more & -> & -> & H3 & H4 & H5)].
    + exists s, n, v, [], [], []. rewrite !app_nil_r. repeat split; auto. constructor.
    + exists s, n, v, [], [59], []. repeat split; auto. constructor.
    + exists s, n, v, (59 :: p ++ m), e, ((n', v') :: more). repeat split; auto.
      * simpl. rewrite <- app_assoc. auto.
      * constructor; auto.
  - intros (p & n & v & m & e & more & -> & -> & H1 & H2 & H3). revert p n v H1.
    induction H2 as [|p' n' v' s' tags' H4 H5 IH]; intros p n v H1.
    + destruct H3 as [->| ->]; simpl; [rewrite app_nil_r; apply tl_last|apply tl_semi]; auto.
    + simpl. rewrite <- app_assoc. apply (tl_cons p n v); auto.
Qed.

Lemma strip_more_sound : forall fuel s t tags, strip_more_tags fuel s = (t, tags) ->
  exists m, s = m ++ t /\ more_tags m (pairs_of tags).
Proof.
  induction fuel as [|fuel IH]; intros s t tags; simpl.
  - intros H. inv H. exists []. split; auto. constructor.
  - assert (forall t tags, (s, @nil TagSpec) = (t, tags) -> exists m, s = m ++ t /\ more_tags m (pairs_of tags)) as Z.
    { intros t0 tags0 H. inv H. exists []. split; auto. constructor. }
    destruct (strip_prefix_char 59 s) as [s1|] eqn:E1; auto.
    apply strip_prefix_char_some in E1. subst s.
    destruct (strip_tag_spec s1) as [[s2 tag]|] eqn:E2; auto.
    destruct (strip_more_tags fuel s2) as [s' ts] eqn:E3. intros H. inv H.
    apply strip_tag_spec_sound in E2. destruct E2 as (p & -> & Hp).
    apply IH in E3. destruct E3 as (m & -> & Hm). exists (59 :: p ++ m). split; [simpl; rewrite <- app_assoc; auto|].
    constructor; auto.
Qed.

Lemma more_at_end : forall m tags e, more_tags m tags -> (e = [] \/ e = [59]) -> at_end (m ++ e).
Proof.
  intros m tags e H He. inv H.
  - destruct He as [->| ->]; [left; auto|right; simpl; eauto].
  - right. simpl. eauto.
Qed.

Lemma strip_more_complete : forall m tags, more_tags m tags -> forall e fuel, (e = [] \/ e = [59]) ->
  (length (m ++ e) <= fuel)%nat ->
  exists ts, strip_more_tags fuel (m ++ e) = (e, ts) /\ pairs_of ts = tags.
Proof.
  induction 1 as [|p n v s tags H1 H2 IH]; intros e fuel He L.
  - exists []. split; auto. destruct He as [->| ->]; destruct fuel; auto.
  - destruct fuel as [|fuel]; [simpl in L; lia|]. simpl.
    replace (strip_prefix_char 59 (59 :: (p ++ s) ++ e)) with (Some ((p ++ s) ++ e)) by reflexivity.
    rewrite <- app_assoc. rewrite (strip_tag_spec_complete p n v) by (auto; eapply more_at_end; eauto).
    destruct (IH e fuel He) as (ts & -> & <-).
    + simpl in L. rewrite !app_length in *. lia.
    + exists (mkTag n v :: ts). auto.
Qed.

Lemma strip_tag_list_iff : forall s tags,
  tag_list_text s tags <-> exists ts, strip_tag_list s = Some ([], ts) /\ pairs_of ts = tags.
Proof.
  intros s tags. rewrite tag_list_more. unfold strip_tag_list. split.
  - intros (p & n & v & m & e & more & -> & -> & H1 & H2 & H3).
    rewrite (strip_tag_spec_complete p n v) by (auto; eapply more_at_end; eauto).
    destruct (strip_more_complete m more H2 e (length (m ++ e)) H3) as (ts & -> & <-); [lia|].
    exists (mkTag n v :: ts). destruct H3 as [->| ->]; auto.
  - intros (ts & H & <-). destruct (strip_tag_spec s) as [[s1 tag]|] eqn:E1; [|discriminate].
    destruct (strip_more_tags (length s1) s1) as [s2 more] eqn:E2.
    apply strip_tag_spec_sound in E1. destruct E1 as (p & -> & Hp).
    apply strip_more_sound in E2. destruct E2 as (m & -> & Hm). injection H as H <-.
    exists p, (tag_name tag), (tag_value tag), m, s2, (pairs_of more). repeat split; auto.
    destruct (strip_prefix_char 59 s2) as [s3|] eqn:E3; simpl in H; subst; auto.
    apply strip_prefix_char_some in E3. auto.
Qed.

Lemma has_dup_spec : forall tags seen,
  has_dup seen tags = false <-> NoDup (map tag_name tags) /\ forall n, In n seen -> ~ In n (map tag_name tags).
Proof.
  induction tags as [|t tags IH]; intros seen; simpl.
  - split; [|auto]. intros _. split; [constructor|auto].
  - destruct (mem_str (tag_name t) seen) eqn:E.
    + apply mem_str_In in E. split; [discriminate|]. intros [_ H]. exfalso. apply (H _ E). auto.
    + apply mem_str_not_In in E. rewrite IH. rewrite NoDup_cons_iff. split.
      * intros [H1 H2]. split; [split; auto; apply H2; simpl; auto|].
        intros n Hn [X|X]; [subst; auto|]. eapply H2; eauto. simpl. auto.
      * intros [[H1 H2] H3]. split; auto. intros n [X|X]; [subst; auto|]. intros Y. eapply H3; eauto.
Qed.

Lemma pairs_names : forall ts, map fst (pairs_of ts) = map tag_name ts.
Proof. intros. unfold pairs_of. rewrite map_map. auto. Qed.

Lemma pairs_of_inj : forall a b, pairs_of a = pairs_of b -> a = b.
Proof.
  induction a as [|[n v] a IH]; intros [|[n' v'] b] H; try discriminate; auto. simpl in H. inv H. f_equal. auto.
Qed.

Theorem tag_list_ok : forall s ts, tag_list_from_str s = Ok ts <->
  tag_list_text s (pairs_of ts) /\ NoDup (map fst (pairs_of ts)).
Proof.
  intros s ts. rewrite strip_tag_list_iff, pairs_names. unfold tag_list_from_str.
  assert (forall tags, has_dup [] tags = false <-> NoDup (map tag_name tags)) as D.
  { intros. rewrite has_dup_spec. split; [tauto|]. intros; split; auto. }
  split.
  - destruct (strip_tag_list s) as [[rest tags]|]; [|discriminate].
    destruct (is_nil rest) eqn:E; [|discriminate]. apply is_nil_true in E. subst.
    destruct (has_dup [] tags) eqn:E2; [discriminate|]. intros H. inv H.
    split; [eauto|]. apply D. auto.
  - intros ((ts' & -> & H) & H2). apply pairs_of_inj in H. subst. simpl. apply D in H2. rewrite H2. auto.
Qed.

Theorem tag_list_dup : forall s, tag_list_from_str s = Err DuplicateTag <->
  exists tags, tag_list_text s tags /\ ~ NoDup (map fst tags).
Proof.
  intros s. unfold tag_list_from_str.
  assert (forall tags, has_dup [] tags = false <-> NoDup (map tag_name tags)) as D.
  { intros. rewrite has_dup_spec. split; [tauto|]. intros; split; auto. }
  split.
  - destruct (strip_tag_list s) as [[rest tags]|] eqn:E0; [|discriminate].
    destruct (is_nil rest) eqn:E; [|discriminate]. apply is_nil_true in E. subst.
    destruct (has_dup [] tags) eqn:E2; [|discriminate]. intros _.
    exists (pairs_of tags). split; [apply strip_tag_list_iff; eauto|]. rewrite pairs_names, <- D. congruence.
  - intros (tags & H1 & H2). apply strip_tag_list_iff in H1. destruct H1 as (ts & -> & <-). simpl.
    rewrite pairs_names, <- D in H2. destruct (has_dup [] ts); congruence.
Qed.

Theorem tag_list_syntax : forall s, tag_list_from_str s = Err TagListSyntax <->
  ~ exists tags, tag_list_text s tags.
Proof.
  intros s. split.
  - intros H (tags & X). apply strip_tag_list_iff in X. destruct X as (ts & X & _).
    unfold tag_list_from_str in H. rewrite X in H. simpl in H. destruct (has_dup [] ts); discriminate.
  - intros H. destruct (tag_list_from_str s) as [ts|[|]] eqn:E; auto; exfalso; apply H.
    + apply tag_list_ok in E. destruct E. eauto.
    + apply tag_list_dup in E. destruct E as (tags & ? & _). eauto.
Qed.

Lemma tag_list_text_det : forall s t1 t2, tag_list_text s t1 -> tag_list_text s t2 -> t1 = t2.
Proof.
  intros s t1 t2 H1 H2. apply strip_tag_list_iff in H1, H2. destruct H1 as (a & E1 & <-), H2 as (b & E2 & <-).
  congruence.
Qed.

Lemma tag_list_values : forall s tags, tag_list_text s tags ->
  Forall (fun '(n, v) => tag_name_text n /\ (v = [] \/ tag_value_text v)) tags.
Proof.
  assert (forall s n v, tag_spec_text s n v -> tag_name_text n /\ (v = [] \/ tag_value_text v)) as X.
  { intros s n v H. inv H; auto. }
  induction 1; constructor; eauto.
Qed.

(** ** Colon-separated lists *)

Lemma rstrip_wsp_app : forall x w, wsps w -> w <> [] -> not_wsp (rev x) -> rstrip_wsp (x ++ w) = Some x.
Proof.
  intros x w Hw Hn Hx. unfold rstrip_wsp. destruct (snoc_cases _ w) as [->|(w' & c & ->)]; [congruence|].
  apply wsps_forallb in Hw. rewrite forallb_app in Hw. simpl in Hw. rewrite andb_true_r in Hw.
  apply andb_true_iff in Hw. destruct Hw as [Hw Hc].
  unfold strip_suffix_if. rewrite app_assoc, rev_app_distr. simpl. rewrite Hc. simpl. rewrite rev_involutive.
  rewrite trim_end_app_all by auto. f_equal.
  destruct (snoc_cases _ x) as [->|(x' & d & ->)]; auto. apply trim_end_nop.
  rewrite rev_app_distr in Hx. simpl in Hx. destruct (is_wsp d) eqn:E; auto. apply is_wsp_iff in E. lia.
Qed.

Lemma rstrip_wsp_none : forall x, not_wsp (rev x) -> rstrip_wsp x = None.
Proof.
  intros x H. unfold rstrip_wsp, strip_suffix_if. destruct (rev x) as [|c r]; auto. simpl in *.
  destruct (is_wsp c) eqn:E; auto. apply is_wsp_iff in E. lia.
Qed.

Lemma strip_crlf_suffix : forall x, strip_suffix_str CRLF (x ++ [13; 10]) = Some x.
Proof.
  intros x. unfold strip_suffix_str. rewrite rev_app_distr. simpl. rewrite rev_involutive. auto.
Qed.

Definition ends_solid (x : str) : Prop := match rev x with [] => False | c :: _ => valchar c end.

Lemma ends_solid_nwsp : forall x, ends_solid x -> not_wsp (rev x).
Proof. intros x. unfold ends_solid. destruct (rev x); simpl; auto. unfold valchar. lia. Qed.

Lemma rstrip_fws_app : forall x f, ends_solid x -> fws f -> rstrip_fws (x ++ f) = Some x.
Proof.
  intros x f Hx (w & W1 & W2 & [->|(w0 & V1 & ->)]); unfold rstrip_fws.
  - rewrite rstrip_wsp_app by (auto using ends_solid_nwsp).
    unfold ends_solid in Hx. unfold strip_suffix_str. destruct (rev x) as [|c r]; [contradiction|].
    simpl. unfold LF. replace (10 =? c) with false; auto. unfold valchar in Hx. lia.
  - rewrite !app_assoc. rewrite rstrip_wsp_app; auto.
    + rewrite strip_crlf_suffix. destruct w0 as [|c w0].
      * rewrite app_nil_r, rstrip_wsp_none by (apply ends_solid_nwsp; auto). auto.
      * rewrite rstrip_wsp_app; auto using ends_solid_nwsp. discriminate.
    + rewrite rev_app_distr. simpl. lia.
Qed.

Lemma rstrip_fws_none : forall x, ends_solid x -> rstrip_fws x = None.
Proof. intros x H. unfold rstrip_fws. rewrite rstrip_wsp_none by (apply ends_solid_nwsp; auto). auto. Qed.

Lemma tag_value_solid : forall v, tag_value_text v -> ends_solid v /\ exists c r, v = c :: r /\ valchar c.
Proof.
  induction 1 as [c H|c f v H1 H2 H3 [IH _]].
  - split; [exact H|eauto].
  - split; [|eauto]. unfold ends_solid in *. simpl. rewrite rev_app_distr. destruct (rev v); [contradiction|]. auto.
Qed.

Lemma trim_surrounded : forall raw item, surrounded raw item -> trim_surrounding_fws raw = item.
Proof.
  intros raw item (f1 & f2 & F1 & F2 & -> & [[-> ->]|H]); unfold trim_surrounding_fws.
  - rewrite skip_fws_app; simpl; auto.
  - destruct (tag_value_solid _ H) as (S & c & r & E & Hc).
    rewrite skip_fws_app; auto; [|rewrite E; apply val_not_ws; auto].
    destruct F2 as [->|F2].
    + rewrite app_nil_r. rewrite rstrip_fws_none; auto.
    + rewrite rstrip_fws_app; auto.
Qed.

(** VALCHARs each followed by optional FWS *)
Inductive val_items : str -> Prop :=
| vi_nil : val_items []
| vi_cons : forall c f s, valchar c -> ofws f -> val_items s -> val_items (c :: f ++ s).
Definition loose (s : str) : Prop := exists f s', ofws f /\ s = f ++ s' /\ val_items s'.

Lemma ofws_chars : forall f c, ofws f -> In c f -> c = 32 \/ c = 9 \/ c = 13 \/ c = 10.
Proof.
  intros f c [->|(w & W1 & W2 & [->|(w0 & V1 & ->)])] H; [contradiction| |].
  - unfold wsps in W1. rewrite Forall_forall in W1. apply W1 in H. tauto.
  - unfold wsps in *. rewrite Forall_forall in *. apply in_app_or in H. destruct H as [H|H].
    + apply V1 in H. tauto.
    + destruct H as [H|[H|H]]; auto. apply W1 in H. tauto.
Qed.

(** a separator lies in what follows the FWS *)
Lemma sep_after_fws : forall f s a b, ofws f -> f ++ s = a ++ 58 :: b -> exists a', a = f ++ a' /\ s = a' ++ 58 :: b.
Proof.
  intros f s a b Hf E. assert (~ In 58 f) as Hn.
  { intros H. apply (ofws_chars f 58 Hf) in H. lia. }
  clear Hf. revert a E. induction f as [|x f IH]; intros a E; simpl in *; [exists a; auto|].
  destruct a as [|y a]; simpl in E.
  - inv E. exfalso. apply Hn. auto.
  - injection E as -> E. destruct (IH (fun X => Hn (or_intror X)) a E) as (a' & -> & ->). exists a'. auto.
Qed.

Lemma val_items_split : forall s, val_items s -> forall a b, s = a ++ 58 :: b -> val_items a /\ loose b.
Proof.
  induction 1 as [|c f s Hc Hf Hs IH]; intros a b E.
  - destruct a; discriminate.
  - destruct a as [|x a]; simpl in E; injection E as -> E.
    + split; [constructor|]. exists f, s. auto.
    + destruct (sep_after_fws f s a b Hf E) as (a' & -> & ->).
      destruct (IH a' b eq_refl) as [I1 I2]. split; auto. constructor; auto.
Qed.

Lemma loose_split : forall s a b, loose s -> s = a ++ 58 :: b -> loose a /\ loose b.
Proof.
  intros s a b (f & s' & Hf & -> & Hs) E. destruct (sep_after_fws f s' a b Hf E) as (a' & -> & ->).
  destruct (val_items_split _ Hs a' b eq_refl). split; auto. exists f, a'. auto.
Qed.

Lemma val_items_value : forall s, val_items s -> s = [] \/ exists v f, s = v ++ f /\ tag_value_text v /\ ofws f.
Proof.
  induction 1 as [|c f s Hc Hf Hs [->|(v & f' & -> & Hv & Hf')]]; auto; right.
  - exists [c], f. rewrite app_nil_r. repeat split; auto. constructor. auto.
  - exists (c :: f ++ v), f'. simpl. rewrite <- app_assoc. repeat split; auto. constructor; auto.
Qed.

Lemma loose_surrounded : forall s, loose s -> exists item, surrounded s item.
Proof.
  intros s (f & s' & Hf & -> & Hs). destruct (val_items_value _ Hs) as [->|(v & f' & -> & Hv & Hf')].
  - exists [], f, []. repeat split; auto.
  - exists v, f, f'. repeat split; auto.
Qed.

Lemma tag_value_items : forall v, tag_value_text v -> val_items v.
Proof.
  induction 1; [|constructor; auto]. replace [c] with (c :: [] ++ []) by reflexivity. constructor; auto. constructor.
Qed.

Lemma loose_value : forall v, v = [] \/ tag_value_text v -> loose v.
Proof.
  intros v [->|H]; [exists [], []; repeat split; auto; constructor|].
  exists [], v. repeat split; auto. apply tag_value_items. auto.
Qed.

Lemma colon_joined_join : forall l, colon_joined l = join 58 l.
Proof. induction l as [|x [|y l] IH]; auto. rewrite join_cons by discriminate. rewrite <- IH. auto. Qed.

Lemma loose_pieces : forall raws, raws <> [] -> loose (join 58 raws) -> Forall loose raws.
Proof.
  induction raws as [|r [|r2 raws] IH]; intros Hn H; [congruence|auto|].
  rewrite join_cons in H by discriminate.
  destruct (loose_split _ r (join 58 (r2 :: raws)) H eq_refl). constructor; auto. apply IH; auto. discriminate.
Qed.

Lemma surrounded_colon : forall raw item, surrounded raw item -> (In 58 raw <-> In 58 item).
Proof.
  intros raw item (f1 & f2 & F1 & F2 & -> & _). rewrite !in_app_iff.
  assert (forall f, ofws f -> ~ In 58 f) as X by (intros f Hf Y; apply (ofws_chars f 58 Hf) in Y; lia).
  pose proof (X f1 F1). pose proof (X f2 F2). tauto.
Qed.

Theorem colon_separated_spec : forall value items, value = [] \/ tag_value_text value ->
  (parse_colon_separated_value value = items <-> colon_list value items).
Proof.
  intros value items Hv. unfold parse_colon_separated_value, colon_list. split.
  - intros <-. exists (split_on 58 value). split; [apply split_on_nonempty|].
    split; [rewrite colon_joined_join, join_split_on; auto|].
    assert (Forall loose (split_on 58 value)) as L.
    { apply loose_pieces; [apply split_on_nonempty|]. rewrite join_split_on. apply loose_value; auto. }
    assert (Forall (fun r => surrounded r (trim_surrounding_fws r)) (split_on 58 value)) as S.
    { eapply Forall_impl; [|exact L]. intros r Hr. destruct (loose_surrounded r Hr) as (item & Hi).
      rewrite (trim_surrounded _ _ Hi). auto. }
    split.
    + clear L. induction S; simpl; constructor; auto.
    + rewrite Forall_map. apply Forall_forall. intros r Hr. rewrite Forall_forall in S.
      rewrite <- (surrounded_colon _ _ (S r Hr)). eapply split_on_no_sep; eauto.
  - intros (raws & Hn & -> & H & Hi). rewrite colon_joined_join, split_on_join; auto.
    + clear Hv Hn Hi. induction H; simpl; auto. f_equal; auto. apply trim_surrounded. auto.
    + clear Hv Hn. intros p Hp. induction H; [contradiction|]. apply Forall_cons_iff in Hi. destruct Hi as [Hi1 Hi2].
      destruct Hp as [->|Hp]; auto. rewrite (surrounded_colon _ _ H). auto.
Qed.

(** ** Copied header fields *)

Lemma field_name_ascii : forall n, field_name n -> as_bytes n = n /\ ~ In 58 n /\ Forall is_scalar n.
Proof.
  intros n [_ H]. repeat split.
  - induction H; auto. rewrite as_bytes_cons, IHForall, utf8_char_ascii; auto. unfold ftext in H. lia.
  - intros X. rewrite Forall_forall in H. apply H in X. unfold ftext in X. lia.
  - eapply Forall_impl; [|exact H]. unfold ftext, is_scalar. intros. lia.
Qed.

Theorem qp_header_field_spec : forall value,
  exists r, parse_quoted_printable_header_field value = Val r /\
    forall n v, r = Some (n, v) <-> field_name n /\ qp_text value (n ++ 58 :: v).
Proof.
  intros value. unfold parse_quoted_printable_header_field.
  destruct (qp_decode_spec value) as (r & -> & H). cbn [bind]. eexists. split; [reflexivity|].
  intros n v. split.
  - destruct r as [bs|]; [|discriminate]. destruct (H bs) as [H1 _]. specialize (H1 eq_refl).
    pose proof (split_once_spec 58 bs) as S. destruct (split_once 58 bs) as [[a b]|]; [|discriminate].
    destruct S as [-> S]. destruct (from_utf8 a) as [a'|] eqn:E; [|discriminate].
    destruct (field_name_new a') as [n'|] eqn:E2; [|discriminate]. intros X. injection X as <- <-.
    apply field_name_new_spec in E2. destruct E2 as [-> E2]. split; auto.
    apply from_utf8_spec in E. destruct E as [_ E]. destruct (field_name_ascii _ E2) as [A _].
    congruence.
  - intros [H1 H2]. apply H in H2. subst r. destruct (field_name_ascii _ H1) as (A & B & C).
    rewrite split_once_app by auto.
    assert (from_utf8 n = Some n) as -> by (apply from_utf8_spec; auto).
    assert (field_name_new n = Some n) as -> by (apply field_name_new_spec; auto). auto.
Qed.
