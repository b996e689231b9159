(** Proofs about builds with debug assertions: parsing. *)

From Coq Require Import String List.
From Verif Require Import Base Utf8 Canon BodyHash Header Parse QP Base64 TagList Domain Signature
  KeyRecord Dev SpecText SpecHeader SpecTag Utf8Proofs QPProofs QPDecode HeaderProofs TagListProofs Lib.

(** ** src/parse.rs *)

Lemma strip_prefix_self : forall a b, strip_prefix a (a ++ b) = Some b.
Proof. induction a as [|x a IH]; intros b; simpl; auto. rewrite N.eqb_refl. auto. Qed.

Lemma strip_suffix_dev_app : forall a b, strip_suffix_dev (a ++ b) b = Val a.
Proof.
  intros a b. unfold strip_suffix_dev, strip_suffix_str, checked_sub.
  rewrite rev_app_distr, strip_prefix_self. simpl.
  replace (Nat.leb (length b) (length (a ++ b))) with true
    by (symmetry; apply Nat.leb_le; rewrite app_length; lia).
  simpl. pose proof (strip_suffix_app a b) as H. unfold strip_suffix in H. rewrite H. auto.
Qed.

(** ** src/quoted_printable.rs *)

Lemma hex_ascii : forall c, is_ascii_hexdigit c = true -> c < 128.
Proof. intros c. unfold is_ascii_hexdigit, is_ascii_digit, in_range. lia. Qed.

Lemma digits_dev : forall a b, is_ascii_hexdigit a = true -> is_ascii_hexdigit b = true ->
  u8_from_digits_dev a b = u8_from_digits a b.
Proof.
  intros a b Ha Hb. unfold u8_from_digits_dev, u8_from_digits, debug_assert. rewrite Ha, Hb. simpl.
  assert (forall c x, is_ascii_hexdigit c = true -> hex_to_u8 c = Val x -> x < 16) as X.
  { clear. intros c x _. unfold hex_to_u8, in_range.
    repeat match goal with |- context [if ?b then _ else _] => destruct b eqn:? end;
      intros H; inversion H; subst; lia. }
  destruct (hex_to_u8 a) as [x|] eqn:E1; auto. destruct (hex_to_u8 b) as [y|] eqn:E2; auto. simpl.
  pose proof (X a x Ha E1). pose proof (X b y Hb E2).
  replace (x * 16 + y <? 256) with true by (symmetry; apply N.ltb_lt; lia). auto.
Qed.

Lemma strip_hexdig_hex : forall s t c, strip_hexdig s = Some (t, c) -> is_ascii_hexdigit c = true.
Proof.
  intros s t c. unfold strip_hexdig. destruct (skip_fws s) as [|x r]; simpl; [discriminate|].
  unfold is_hexdig. destruct (is_ascii_hexdigit x) eqn:E; [|discriminate]. intros H. inversion H.
  pose proof (hex_ascii x E). unfold utf8_char. replace (x <? 128) with true by lia. simpl. auto.
Qed.

Lemma octet_dev : forall s, strip_hex_octet_dev s = strip_hex_octet s.
Proof.
  intros s. unfold strip_hex_octet_dev, strip_hex_octet.
  destruct (strip_hexdig s) as [[s1 d1]|] eqn:E1; auto.
  destruct (strip_hexdig s1) as [[s2 d2]|] eqn:E2; auto.
  rewrite digits_dev; auto; eapply strip_hexdig_hex; eauto.
Qed.

Lemma qp_loop_dev : forall n st s acc, qp_decode_loop_dev n st s acc = qp_decode_loop n st s acc.
Proof.
  induction n as [|n IH]; intros st s acc; simpl; auto.
  destruct (strip_prefix_char 61 s) as [s1|].
  - rewrite octet_dev. destruct (strip_hex_octet s1) as [[[s2 x]|]|]; simpl; auto.
  - destruct (strip_dkim_safe_chars s) as [s1|] eqn:E.
    + apply safe_run_some in E. destruct E as (a & _ & -> & _).
      rewrite strip_suffix_dev_app, strip_suffix_app. simpl. auto.
    + destruct (strip_fws s); auto. destruct st; auto.
Qed.

Lemma qp_dev : forall s, qp_decode_dev s = qp_decode s.
Proof. intros s. apply qp_loop_dev. Qed.

Lemma section_loop_dev : forall n s acc, (length s <= n)%nat ->
  qp_section_loop_dev s acc = qp_section_loop s acc.
Proof.
  induction n as [|n IH]; intros s acc L; destruct s as [|c s]; simpl in L; try lia; auto.
  simpl. destruct (c =? 61).
  - destruct s as [|c1 [|c2 r]]; auto. destruct (is_hexdig c1) eqn:E1; auto.
    destruct (is_hexdig c2) eqn:E2; auto. rewrite digits_dev; auto.
    destruct (u8_from_digits c1 c2); simpl; auto. apply IH. simpl in L. lia.
  - destruct (is_dkim_safe_char c || is_wsp c); auto. apply IH. lia.
Qed.

Lemma section_dev : forall s, decode_qp_section_dev s = decode_qp_section s.
Proof. intros s. apply (section_loop_dev (length s)). lia. Qed.

(** ** src/tag_list.rs *)

Lemma name_dev : forall s, strip_tag_name_dev s = Val (strip_tag_name s).
Proof.
  intros s. destruct (strip_tag_name s) as [[t n]|] eqn:E.
  - pose proof (strip_tag_name_sound s t n E) as (-> & _). revert E.
    unfold strip_tag_name_dev, strip_tag_name. destruct (strip_prefix_if is_alpha (n ++ t)); [|discriminate].
    intros E. injection E as -> _. rewrite strip_suffix_dev_app. auto.
  - revert E. unfold strip_tag_name_dev, strip_tag_name. destruct (strip_prefix_if is_alpha s); [discriminate|auto].
Qed.

Lemma name_equals_dev : forall s, strip_tag_name_and_equals_dev s = Val (strip_tag_name_and_equals s).
Proof.
  intros s. unfold strip_tag_name_and_equals_dev, strip_tag_name_and_equals. rewrite name_dev. simpl.
  destruct (strip_tag_name (skip_fws s)) as [[t n]|]; auto.
Qed.

Lemma value_dev : forall s, strip_tag_value_dev s = Val (strip_tag_value s).
Proof.
  intros s. destruct (strip_tag_value s) as [[t v]|] eqn:E.
  - pose proof (strip_tag_value_sound s t v E) as (-> & _). revert E.
    unfold strip_tag_value_dev, strip_tag_value. destruct (strip_tval (v ++ t)); [|discriminate].
    intros E. injection E as -> _. rewrite strip_suffix_dev_app. auto.
  - revert E. unfold strip_tag_value_dev, strip_tag_value. destruct (strip_tval s); [discriminate|auto].
Qed.

Lemma spec_dev : forall s, strip_tag_spec_dev s = Val (strip_tag_spec s).
Proof.
  intros s. unfold strip_tag_spec_dev, strip_tag_spec. rewrite name_equals_dev. simpl.
  destruct (strip_tag_name_and_equals s) as [[t n]|]; auto. rewrite value_dev. simpl.
  destruct (strip_tag_value (skip_fws t)) as [[t' v]|]; auto.
Qed.

Lemma more_tags_dev : forall n s, strip_more_tags_dev n s = Val (strip_more_tags n s).
Proof.
  induction n as [|n IH]; intros s; simpl; auto. destruct (strip_prefix_char 59 s) as [s1|]; auto.
  rewrite spec_dev. simpl. destruct (strip_tag_spec s1) as [[s2 t]|]; auto. rewrite IH. simpl.
  destruct (strip_more_tags n s2); auto.
Qed.

Lemma tag_list_dev : forall s, tag_list_from_str_dev s = Val (tag_list_from_str s).
Proof.
  intros s. unfold tag_list_from_str_dev, tag_list_from_str, strip_tag_list_dev, strip_tag_list.
  rewrite spec_dev. simpl. destruct (strip_tag_spec s) as [[s1 t]|]; auto. rewrite more_tags_dev. simpl.
  destruct (strip_more_tags (length s1) s1); auto.
Qed.

Lemma is_tag_name_dev_eq : forall s, is_tag_name_dev s = Val (is_tag_name s).
Proof. intros s. unfold is_tag_name_dev, is_tag_name. rewrite name_dev. auto. Qed.

Lemma is_tag_value_dev_eq : forall s, is_tag_value_dev s = Val (is_tag_value s).
Proof.
  intros s. unfold is_tag_value_dev, is_tag_value. rewrite value_dev. destruct (is_nil s); auto.
Qed.

Definition value_ok (v : str) : Prop := v = [] \/ tag_value_text v.

Lemma assert_dev : forall v, value_ok v -> assert_tag_value v = Val tt.
Proof.
  intros v H. unfold assert_tag_value. rewrite is_tag_value_dev_eq. apply is_tag_value_spec in H.
  rewrite H. auto.
Qed.

Lemma colon_dev : forall v, value_ok v ->
  parse_colon_separated_value_dev v = Val (parse_colon_separated_value v).
Proof. intros v H. unfold parse_colon_separated_value_dev. rewrite assert_dev; auto. Qed.

Lemma base64_dev : forall v, value_ok v -> parse_base64_value_dev v = Val (parse_base64_value v).
Proof. intros v H. unfold parse_base64_value_dev. rewrite assert_dev; auto. Qed.

Lemma qp_section_value_dev : forall v, value_ok v ->
  parse_qp_section_value_dev v = parse_qp_section_value v.
Proof. intros v H. unfold parse_qp_section_value_dev. rewrite assert_dev by auto. apply section_dev. Qed.

Lemma qp_value_dev : forall v, value_ok v ->
  parse_quoted_printable_value_dev v = parse_quoted_printable_value v.
Proof. intros v H. unfold parse_quoted_printable_value_dev. rewrite assert_dev by auto. apply qp_dev. Qed.

Lemma header_value_dev : forall v, loose v ->
  parse_quoted_printable_header_field_dev v = parse_quoted_printable_header_field v.
Proof.
  intros v H. unfold parse_quoted_printable_header_field_dev, parse_quoted_printable_header_field.
  destruct (loose_surrounded v H) as (item & S). rewrite (trim_surrounded _ _ S).
  rewrite assert_dev; [simpl; rewrite qp_dev; auto|].
  destruct S as (f1 & f2 & _ & _ & _ & [[-> _]|T]); [left|right]; auto.
Qed.

(** a separator of [loose] text leaves loose pieces *)
Lemma bar_after_fws : forall f s a b, ofws f -> f ++ s = a ++ 124 :: b ->
  exists a', a = f ++ a' /\ s = a' ++ 124 :: b.
Proof.
  intros f s a b Hf E. assert (~ In 124 f) as Hn.
  { intros H. apply (ofws_chars f 124 Hf) in H. lia. }
  clear Hf. revert a E. induction f as [|x f IH]; intros a E; simpl in *; [exists a; auto|].
  destruct a as [|y a]; simpl in E.
  - inv E. exfalso. apply Hn. auto.
  - injection E as -> E. destruct (IH (fun X => Hn (or_intror X)) a E) as (a' & -> & ->). exists a'. auto.
Qed.

Lemma val_items_bar : forall s, val_items s -> forall a b, s = a ++ 124 :: b -> val_items a /\ loose b.
Proof.
  induction 1 as [|c f s Hc Hf Hs IH]; intros a b E.
  - destruct a; discriminate.
  - destruct a as [|x a]; simpl in E; injection E as -> E.
    + split; [constructor|]. exists f, s. auto.
    + destruct (bar_after_fws f s a b Hf E) as (a' & -> & ->).
      destruct (IH a' b eq_refl) as [I1 I2]. split; auto. constructor; auto.
Qed.

Lemma loose_bar : forall s a b, loose s -> s = a ++ 124 :: b -> loose a /\ loose b.
Proof.
  intros s a b (f & s' & Hf & -> & Hs) E. destruct (bar_after_fws f s' a b Hf E) as (a' & -> & ->).
  destruct (val_items_bar _ Hs a' b eq_refl). split; auto. exists f, a'. auto.
Qed.

Lemma loose_bars : forall raws, raws <> [] -> loose (join 124 raws) -> Forall loose raws.
Proof.
  induction raws as [|r [|r2 raws] IH]; intros Hn H; [congruence|auto|].
  rewrite join_cons in H by discriminate.
  destruct (loose_bar _ r (join 124 (r2 :: raws)) H eq_refl). constructor; auto. apply IH; auto. discriminate.
Qed.

Lemma copied_dev : forall ps, Forall loose ps -> parse_copied_dev ps = parse_copied ps.
Proof.
  induction 1 as [|p ps Hp _ IH]; simpl; auto. rewrite header_value_dev by auto. rewrite IH. auto.
Qed.

Lemma copied_value_dev : forall v, value_ok v ->
  parse_copied_dev (split_on 124 v) = parse_copied (split_on 124 v).
Proof.
  intros v H. apply copied_dev, loose_bars; [apply split_on_nonempty|]. rewrite join_split_on.
  apply loose_value. auto.
Qed.

(** ** src/signature.rs *)

Lemma contains_false : forall c s, ~ In c s -> contains_char c s = false.
Proof.
  intros c s H. unfold contains_char. destruct (existsb (N.eqb c) s) eqn:E; auto.
  apply existsb_exists in E. destruct E as (x & X & Y). apply N.eqb_eq in Y. subst. contradiction.
Qed.

Lemma label_dev : forall l, ~ In 46 l -> is_label_dev l = Val (is_label l).
Proof. intros l H. unfold is_label_dev, is_label. rewrite contains_false by auto. auto. Qed.

Lemma labels_dev : forall ls, (forall l, In l ls -> ~ In 46 l) -> all_labels_dev ls = Val (forallb is_label ls).
Proof.
  induction ls as [|l ls IH]; intros H; simpl; auto. rewrite label_dev by (apply H; left; auto). simpl.
  destruct (is_label l); auto. apply IH. intros x X. apply H. right. auto.
Qed.

Lemma dns_dev : forall s b, is_valid_dns_name_dev s b = is_valid_dns_name s b.
Proof.
  intros s b. unfold is_valid_dns_name_dev, is_valid_dns_name. destruct (has_valid_domain_len s); auto. simpl.
  assert (forall l, In l (rev (split_on 46 s)) -> ~ In 46 l) as H.
  { intros l X. apply (split_on_no_sep 46 s). apply in_rev. auto. }
  destruct (rev (split_on 46 s)) as [|f ls]; auto. rewrite label_dev by (apply H; left; auto). simpl.
  rewrite labels_dev by (intros x X; apply H; right; auto). auto.
Qed.

Lemma valid_domain_dev : forall idna s b,
  is_valid_domain_string_dev idna s b = is_valid_domain_string idna s b.
Proof.
  intros. unfold is_valid_domain_string_dev, is_valid_domain_string.
  destruct (idna_to_ascii idna s); auto. rewrite dns_dev. auto.
Qed.

Lemma domain_dev : forall idna s, domain_new_dev idna s = domain_new idna s.
Proof. intros. unfold domain_new_dev, domain_new. rewrite valid_domain_dev. auto. Qed.
Lemma selector_dev : forall idna s, selector_new_dev idna s = selector_new idna s.
Proof. intros. unfold selector_new_dev, selector_new. rewrite valid_domain_dev. auto. Qed.

Lemma subdomain_dev : forall idna a b, eq_or_subdomain_of_dev idna a b = eq_or_subdomain_of idna a b.
Proof.
  intros. unfold eq_or_subdomain_of_dev, eq_or_subdomain_of, checked_sub. destruct (domain_eqb a b); auto.
  destruct (domain_to_ascii idna a) as [x|]; auto. destruct (domain_to_ascii idna b) as [y|]; auto.
  cbn [bind]. destruct (Nat.leb (str_len y) (str_len x)); auto.
Qed.

Lemma identity_dev : forall idna s, identity_new_dev idna s = identity_new idna s.
Proof.
  intros. unfold identity_new_dev, identity_new. destruct (rsplit_once 64 s) as [[l d]|]; auto.
  rewrite domain_dev. auto.
Qed.

Lemma sig_tag_dev_eq : forall pre idna p t, value_ok (tag_value t) ->
  sig_tag_dev pre idna p t = sig_tag pre idna p t.
Proof.
  intros pre idna p t H. destruct p. unfold sig_tag_dev, sig_tag, parse_names_value_dev.
  rewrite domain_dev, selector_dev, base64_dev, colon_dev, qp_value_dev, copied_value_dev by auto.
  repeat match goal with |- context [if leqb (tag_name t) ?l then _ else _] =>
    destruct (leqb (tag_name t) l); [reflexivity || idtac|] end; auto.
  - destruct (is_nil (tag_value t)); auto.
  - destruct (parse_quoted_printable_value (tag_value t)) as [[v|]|]; auto. cbn [bind].
    destruct (from_utf8 v); auto. rewrite identity_dev. auto.
Qed.

Definition tags_ok (tags : list TagSpec) : Prop := Forall (fun t => value_ok (tag_value t)) tags.

Lemma sig_tags_dev_eq : forall pre idna tags p, tags_ok tags ->
  sig_tags_dev pre idna p tags = sig_tags pre idna p tags.
Proof.
  intros pre idna tags p H. revert p. induction H as [|t ts H _ IH]; intros p; auto.
  cbn [sig_tags_dev sig_tags]. rewrite sig_tag_dev_eq by auto.
  destruct (sig_tag pre idna p t) as [[q|e]|]; cbn [bind]; auto.
Qed.

Lemma sig_finish_dev_eq : forall idna p, sig_finish_dev idna p = sig_finish idna p.
Proof.
  intros. unfold sig_finish_dev, sig_finish.
  repeat match goal with |- context [match ?x with _ => _ end] =>
    match x with p_identity p => fail 1 | _ => destruct x; auto end end.
  all: destruct (p_identity p); auto; rewrite subdomain_dev; auto.
Qed.

Lemma parsed_tags_ok : forall s tags, tag_list_from_str s = Ok tags -> tags_ok tags.
Proof.
  intros s tags H. apply tag_list_ok in H. destruct H as [H _]. apply tag_list_values in H.
  unfold pairs_of in H. apply Forall_map in H. revert H. apply Forall_impl. intros t [_ V]. exact V.
Qed.

Theorem sig_dev : forall pre idna s, sig_from_str_dev pre idna s = sig_from_str pre idna s.
Proof.
  intros. unfold sig_from_str_dev, sig_from_str. rewrite tag_list_dev. cbn [bind].
  destruct (tag_list_from_str s) as [tags|] eqn:T; auto. apply parsed_tags_ok in T.
  unfold sig_from_tags_dev, sig_from_tags, sig_from_tags_internal. rewrite sig_tags_dev_eq by auto.
  destruct (sig_tags pre idna psig_init tags) as [[p|e]|]; auto. cbn [bind]. rewrite sig_finish_dev_eq. auto.
Qed.

(** ** src/record.rs *)

Lemma rec_tag_dev_eq : forall pre i p t, value_ok (tag_value t) -> rec_tag_dev pre i p t = rec_tag pre i p t.
Proof.
  intros pre i p t H. destruct p. unfold rec_tag_dev, rec_tag.
  rewrite base64_dev, colon_dev, qp_section_value_dev by auto. auto.
Qed.

Lemma rec_tags_dev_eq : forall pre tags i p, tags_ok tags -> rec_tags_dev pre i p tags = rec_tags pre i p tags.
Proof.
  intros pre tags i p H. revert i p. induction H as [|t ts H _ IH]; intros i p; auto.
  cbn [rec_tags_dev rec_tags]. rewrite rec_tag_dev_eq by auto.
  destruct (rec_tag pre i p t) as [[q|e]|]; cbn [bind]; auto.
Qed.

Theorem record_dev : forall pre s, record_from_str_dev pre s = record_from_str pre s.
Proof.
  intros. unfold record_from_str_dev, record_from_str. rewrite tag_list_dev. cbn [bind].
  destruct (tag_list_from_str s) as [tags|] eqn:T; auto. apply parsed_tags_ok in T.
  unfold record_from_tags_dev, record_from_tags. rewrite rec_tags_dev_eq by auto. auto.
Qed.
