(** Proofs about domain names, selectors and identities (src/signature.rs). *)

From Coq Require Import String List.
From Verif Require Import Lib Utf8 Canon Domain SpecCanon SpecDomain Utf8Proofs HeaderCanonProofs HeaderProofs.

Lemma dotted_join : forall l, dotted l = join 46 l.
Proof. induction l as [|x [|y l] IH]; auto. rewrite join_cons by discriminate. rewrite <- IH. auto. Qed.

Lemma str_len_ascii : forall s, Forall (fun c => c < 128) s -> str_len s = length s.
Proof.
  intros s H. unfold str_len. f_equal. induction H; auto.
  rewrite as_bytes_cons, IHForall, utf8_char_ascii; auto.
Qed.

Lemma ends_with_iff : forall c s, ends_with c s = true <-> exists s', s = s' ++ [c].
Proof.
  intros c s. unfold ends_with, starts_with. destruct (snoc_cases _ s) as [->|(s' & x & ->)].
  - split; [discriminate|]. intros (s' & H). destruct s'; discriminate.
  - rewrite rev_app_distr. simpl. rewrite N.eqb_eq. split.
    + intros ->. eauto.
    + intros (s2 & H). apply app_inj_tail in H. destruct H; auto.
Qed.

Lemma starts_with_iff : forall c s, starts_with c s = true <-> exists s', s = c :: s'.
Proof.
  intros c [|x s]; simpl; [split; [discriminate|intros (? & H); discriminate]|].
  rewrite N.eqb_eq. split; [intros ->; eauto|intros (s' & H); inv H; auto].
Qed.

Lemma label_char_iff : forall c, is_ascii_alphanumeric c || (c =? 45) || (c =? 95) = true <->
  letter_digit c \/ c = 45 \/ c = 95.
Proof.
  intros. unfold is_ascii_alphanumeric, is_ascii_alphabetic, is_ascii_upper, is_ascii_lower, is_ascii_digit, in_range,
    letter_digit. lia.
Qed.

Lemma label_chars_ascii : forall s, Forall (fun c => letter_digit c \/ c = 45 \/ c = 95) s ->
  Forall (fun c => c < 128) s /\ ~ In 46 s.
Proof.
  intros s H. split.
  - eapply Forall_impl; [|exact H]. unfold letter_digit. intros. lia.
  - intros X. rewrite Forall_forall in H. apply H in X. unfold letter_digit in X. lia.
Qed.

Lemma is_label_iff : forall s, is_label s = true <-> dns_label s.
Proof.
  intros s. unfold is_label, has_valid_label_len, dns_label. rewrite !andb_true_iff, !negb_true_iff.
  rewrite (forallb_Forall_iff _ _ _ label_char_iff).
  assert (starts_with 45 s = false <-> forall l', s <> 45 :: l') as ->.
  { split.
    - intros H l' ->. simpl in H. discriminate.
    - intros H. destruct (starts_with 45 s) eqn:E; auto. apply starts_with_iff in E. destruct E as (s' & E). destruct (H s' E). }
  assert (ends_with 45 s = false <-> forall l', s <> l' ++ [45]) as ->.
  { split.
    - intros H l' E. assert (ends_with 45 s = true) by (apply ends_with_iff; eauto). congruence.
    - intros H. destruct (ends_with 45 s) eqn:E; auto. apply ends_with_iff in E. destruct E as (s' & E). destruct (H s' E). }
  rewrite !Nat.leb_le. split.
  - intros (((H1 & H2) & H3) & H4). destruct (label_chars_ascii s H4) as [A _]. rewrite (str_len_ascii s A) in H1. tauto.
  - intros (H1 & H2 & H3 & H4). destruct (label_chars_ascii s H2) as [A _]. rewrite (str_len_ascii s A). tauto.
Qed.

Lemma is_digit_iff : forall c, is_ascii_digit c = true <-> 48 <= c <= 57.
Proof. intros. unfold is_ascii_digit, in_range. lia. Qed.

Lemma dotted_ascii : forall ls, Forall dns_label ls -> Forall (fun c => c < 128) (dotted ls).
Proof.
  intros ls H. rewrite dotted_join. induction H as [|l ls (H1 & H2 & _) H IH]; [constructor|].
  destruct (label_chars_ascii l H2) as [A _].
  destruct ls; [simpl; auto|]. rewrite join_cons by discriminate. apply Forall_app. split; auto.
  apply Forall_app. split; auto. repeat constructor.
Qed.

Lemma forallb_Forall_label : forall ls, forallb is_label ls = true <-> Forall dns_label ls.
Proof. apply forallb_Forall_iff. apply is_label_iff. Qed.

Lemma is_valid_dns_name_spec : forall s tld, exists b,
  is_valid_dns_name s tld = Val b /\ (b = true <-> dns_name s tld).
Proof.
  intros s tld. unfold is_valid_dns_name, has_valid_domain_len, dns_name.
  assert (forall s, dns_name s tld -> Forall (fun c => c < 128) s) as Ascii.
  { intros s0 (_ & init & final & -> & H & _). apply dotted_ascii. auto. }
  destruct ((1 <=? str_len s)%nat && (str_len s <=? 253)%nat) eqn:EL; cbn [negb].
  - apply andb_true_iff in EL. rewrite !Nat.leb_le in EL.
    pose proof (split_on_nonempty 46 s) as Hn.
    pose proof (join_split_on 46 s) as J.
    destruct (snoc_cases _ (split_on 46 s)) as [E|(init & final & E)]; [congruence|].
    rewrite E, rev_app_distr. simpl.
    assert (dns_name s tld <-> (Forall dns_label (init ++ [final])
      /\ (tld = true -> ~ Forall (fun c => 48 <= c <= 57) final))) as X.
    { split.
      - intros (_ & init' & final' & E' & H1 & H2).
        assert (split_on 46 s = init' ++ [final']) as Y.
        { rewrite E', dotted_join. apply split_on_join; [destruct init'; discriminate|].
          intros p Hp. rewrite Forall_forall in H1. apply H1 in Hp. destruct Hp as (_ & Hp & _).
          apply label_chars_ascii in Hp. tauto. }
        rewrite E in Y. apply app_inj_tail in Y. destruct Y as [-> ->]. auto.
      - intros [H1 H2]. split.
        + rewrite <- (str_len_ascii s); auto. rewrite <- J, E, <- dotted_join. apply dotted_ascii. auto.
        + exists init, final. split; auto. rewrite dotted_join, <- E, J. auto. }
    rewrite Forall_app, <- !forallb_Forall_label in X. simpl in X. rewrite andb_true_r in X.
    rewrite <- (forallb_Forall_iff _ _ _ is_digit_iff) in X.
    fold (dns_name s tld).
    destruct (is_label final); simpl.
    + destruct (tld && forallb is_ascii_digit final) eqn:ET.
      * exists false. split; auto. rewrite X. split; [discriminate|].
        apply andb_true_iff in ET. destruct ET as [-> ET]. intros [_ Y]. exfalso. apply Y; auto.
      * exists (forallb is_label (rev init)). split; auto. rewrite forallb_rev, X. split; [|tauto].
        intros H. split; [auto|]. intros -> Y. rewrite Y in ET. discriminate.
    + exists false. split; auto. rewrite X. split; [discriminate|]. intros [[_ Y] _]. discriminate.
  - exists false. split; auto. split; [discriminate|]. intros H. exfalso.
    rewrite andb_false_iff, !Nat.leb_gt in EL.
    rewrite (str_len_ascii s) in EL by (apply Ascii; exact H). destruct H as [H _]. lia.
Qed.

Section WithIdna.
Variable idna : Idna.

Lemma is_valid_domain_string_spec : forall s tld, exists b,
  is_valid_domain_string idna s tld = Val b /\ (b = true <-> domain_text idna s tld).
Proof.
  intros s tld. unfold is_valid_domain_string, domain_text. destruct (idna_to_ascii idna s) as [a|].
  - destruct (is_valid_dns_name_spec a tld) as (b & -> & H). cbn [bind]. eexists. split; auto.
    rewrite andb_true_iff, H. destruct (idna_to_unicode idna s) as [t ok]. simpl. split.
    + intros [H1 ->]. split; eauto.
    + intros [(a' & E & H1) (t' & E2)]. inv E. inv E2. auto.
  - exists false. split; auto. split; [discriminate|]. intros [(a & E & _) _]. discriminate.
Qed.

Lemma domain_new_spec : forall s, exists r, domain_new idna s = Val r /\
  forall d, r = Some d <-> d = s /\ domain_text idna s true.
Proof.
  intros s. unfold domain_new, is_valid_domain_name.
  destruct (is_valid_domain_string_spec s true) as (b & -> & H). cbn [bind]. eexists. split; auto.
  intros d. rewrite <- H. destruct b; split; try easy.
  - intros X. inv X. auto.
  - intros [-> _]. auto.
Qed.

Lemma selector_new_spec : forall s, exists r, selector_new idna s = Val r /\
  forall d, r = Some d <-> d = s /\ domain_text idna s false.
Proof.
  intros s. unfold selector_new, is_valid_selector.
  destruct (is_valid_domain_string_spec s false) as (b & -> & H). cbn [bind]. eexists. split; auto.
  intros d. rewrite <- H. destruct b; split; try easy.
  - intros X. inv X. auto.
  - intros [-> _]. auto.
Qed.

(** ** Subdomains *)

Lemma lower_app : forall a b, lower (a ++ b) = lower a ++ lower b.
Proof. intros. apply map_app. Qed.

Lemma lower_length : forall a, length (lower a) = length a.
Proof. intros. apply map_length. Qed.

Lemma lower_char_46 : forall c, (if (65 <=? c) && (c <=? 90) then c + 32 else c) = 46 <-> c = 46.
Proof. intros c. destruct ((65 <=? c) && (c <=? 90)) eqn:E; lia. Qed.

Lemma app_inj_len : forall A (a b c d : list A), length a = length c -> a ++ b = c ++ d -> a = c /\ b = d.
Proof.
  induction a as [|x a IH]; intros b [|y c] d L E; try discriminate; auto.
  simpl in E. inv E. inv L. destruct (IH b c d) as [-> ->]; auto.
Qed.

Lemma label_suffix_iff : forall sub sup, label_suffix sub sup <-> 
  exists p, sub = p ++ sup /\ (p = [] \/ exists p', p = p' ++ [46]).
Proof.
  intros sub sup. split.
  - intros (la & lb & Hn & _ & -> & ->). rewrite !dotted_join. induction la as [|l la IH].
    + exists []. auto.
    + destruct IH as (p & E & H). simpl app. rewrite join_cons by (destruct la, lb; simpl; congruence).
      rewrite E. exists (l ++ [46] ++ p). split; [rewrite <- !app_assoc; auto|]. right.
      destruct H as [->|(p' & ->)]; [exists l; rewrite app_nil_r; auto|].
      exists (l ++ [46] ++ p'). rewrite <- !app_assoc. auto.
  - intros (p & -> & H).
    exists (match p with [] => [] | _ => removelast (split_on 46 p) end), (split_on 46 sup).
    split; [apply split_on_nonempty|]. rewrite !dotted_join, join_split_on.
    destruct H as [->|(p' & ->)].
    + split; [|simpl; rewrite join_split_on; auto]. simpl. apply Forall_forall. intros l Hl. eapply split_on_no_sep; eauto.
    + assert (split_on 46 (p' ++ [46]) = split_on 46 p' ++ [[]]) as E.
      { transitivity (split_on 46 (join 46 (split_on 46 p' ++ [[]]))).
        - f_equal. clear. pose proof (split_on_nonempty 46 p'). rewrite <- (join_split_on 46 p') at 1.
          induction (split_on 46 p') as [|x l IH]; [congruence|]. destruct l as [|y l]; auto.
          rewrite join_cons by discriminate. rewrite <- !app_assoc. rewrite IH by discriminate.
          change ((x :: y :: l) ++ [[]]) with (x :: ((y :: l) ++ [[]])).
          rewrite (join_cons 46 x (_ ++ _)) by discriminate. reflexivity.
        - apply split_on_join; [destruct (split_on 46 p'); discriminate|].
          intros q Hq. apply in_app_or in Hq. destruct Hq as [Hq|[<-|[]]]; auto. eapply split_on_no_sep; eauto. }
      destruct (p' ++ [46]) as [|x r] eqn:Ep; [destruct p'; discriminate|]. rewrite <- Ep in *. clear x r Ep.
      rewrite E, removelast_last. split; [|split; auto].
      * apply Forall_app. split; apply Forall_forall; intros l Hl; eapply split_on_no_sep; eauto.
      * clear E. pose proof (split_on_nonempty 46 p'). rewrite <- (join_split_on 46 p') at 1.
        induction (split_on 46 p') as [|x l IH]; [congruence|]. destruct l as [|y l].
        -- change ([x] ++ split_on 46 sup) with (x :: split_on 46 sup).
           rewrite (join_cons 46 x (split_on 46 sup)) by (apply split_on_nonempty). rewrite join_split_on, <- app_assoc. auto.
        -- rewrite join_cons by discriminate. rewrite <- !app_assoc. rewrite <- !app_assoc in IH.
           rewrite IH by discriminate.
           change ((x :: y :: l) ++ split_on 46 sup) with (x :: ((y :: l) ++ split_on 46 sup)).
           rewrite (join_cons 46 x (_ ++ _)) by discriminate. reflexivity.
Qed.

Lemma eqic_lower : forall a b, eq_ignore_ascii_case a b = true <-> lower a = lower b.
Proof. intros. rewrite eqic_eq, !lower_eq. tauto. Qed.

Lemma domain_text_ascii : forall s tld, domain_text idna s tld ->
  exists a, idna_to_ascii idna s = Some a /\ Forall (fun c => c < 128) a.
Proof.
  intros s tld [(a & E & _ & init & final & -> & H & _) _]. eexists. split; [exact E|]. apply dotted_ascii. auto.
Qed.

Lemma eq_or_subdomain_spec : forall self other t1 t2,
  domain_text idna self t1 -> domain_text idna other t2 ->
  exists b, eq_or_subdomain_of idna self other = Val b /\
    (b = true <-> lower self = lower other \/ ascii_subdomain idna self other).
Proof.
  intros self other t1 t2 H1 H2. unfold eq_or_subdomain_of, domain_eqb.
  destruct (eq_ignore_ascii_case self other) eqn:E0.
  - exists true. split; auto. apply eqic_lower in E0. tauto.
  - destruct (domain_text_ascii _ _ H1) as (a & Ea & Aa). destruct (domain_text_ascii _ _ H2) as (b & Eb & Ab).
    unfold domain_to_ascii. rewrite Ea, Eb. cbn [bind].
    rewrite !str_len_ascii by auto.
    assert (lower self = lower other \/ ascii_subdomain idna self other <-> label_suffix (lower a) (lower b)) as X.
    { split.
      - intros [X|(a' & b' & X1 & X2 & X3)]; [apply eqic_lower in X; congruence|]. congruence.
      - intros X. right. exists a, b. auto. }
    rewrite label_suffix_iff in X.
    destruct (Nat.leb (length b) (length a)) eqn:EL.
    + apply Nat.leb_le in EL.
      assert (exists l r, a = l ++ r /\ length r = length b) as (l & r & -> & Lr).
      { exists (firstn (length a - length b) a), (skipn (length a - length b) a). split; [symmetry; apply firstn_skipn|].
        rewrite skipn_length. lia. }
      apply Forall_app in Aa. destruct Aa as [Al Ar].
      rewrite app_length. replace (length l + length r - length b)%nat with (str_len l).
      2:{ rewrite str_len_ascii by auto. lia. }
      rewrite split_at_byte_app. eexists. split; [reflexivity|]. rewrite X.
      rewrite andb_true_iff, orb_true_iff, eqic_lower, is_nil_true, ends_with_iff.
      rewrite lower_app. clear X. split.
      * intros [X1 X2]. exists (lower l). rewrite X1. split; auto. destruct X2 as [->|(s' & ->)]; auto.
        right. exists (lower s'). rewrite lower_app. auto.
      * intros (p & X1 & X2).
        assert (lower l = p /\ lower r = lower b) as [<- Y].
        { apply app_inj_len; auto. apply (f_equal (@length N)) in X1. rewrite !app_length, !lower_length in X1.
          rewrite lower_length. lia. }
        split; auto. destruct X2 as [X2|(p' & X2)].
        -- left. destruct l; [auto|discriminate].
        -- right. destruct (snoc_cases _ l) as [->|(l' & c & ->)]; [destruct p'; discriminate|].
           rewrite lower_app in X2. apply app_inj_tail in X2. destruct X2 as [_ X2].
           rewrite lower_char_46 in X2. subst. eauto.
    + exists false. split; auto. rewrite X. split; [discriminate|]. intros (p & X1 & _). exfalso.
      apply Nat.leb_gt in EL. apply (f_equal (@length N)) in X1. rewrite app_length, !lower_length in X1. lia.
Qed.

(** ** Identities *)

Lemma is_atext_iff : forall c, is_atext c = true <-> atext c.
Proof.
  intros c. unfold is_atext, atext. rewrite !orb_true_iff, negb_true_iff.
  assert (is_ascii_alphanumeric c = true <-> letter_digit c) as ->.
  { unfold is_ascii_alphanumeric, is_ascii_alphabetic, is_ascii_upper, is_ascii_lower, is_ascii_digit, in_range, letter_digit. lia. }
  assert (existsb (N.eqb c) (lit "!#$%&'*+-/=?^_`{|}~") = true <-> In c (lit "!#$%&'*+-/=?^_`{|}~")) as ->.
  { rewrite existsb_exists. split.
    - intros (x & H & E). apply N.eqb_eq in E. subst. auto.
    - intros H. exists c. split; auto. apply N.eqb_refl. }
  assert (is_ascii c = false <-> 128 <= c) as -> by (unfold is_ascii; lia). tauto.
Qed.

Lemma atext_not_dot : forall c, atext c -> c <> 46 /\ c <> 34 /\ c <> 64.
Proof.
  intros c [H|[H|H]]; [unfold letter_digit in H; lia| |lia].
  assert (forallb (fun c => negb ((c =? 46) || (c =? 34) || (c =? 64))) (lit "!#$%&'*+-/=?^_`{|}~") = true) as X by reflexivity.
  rewrite forallb_forall in X. apply X in H. lia.
Qed.

(** the part after the first character of an atom *)
Definition atom_rest (s : str) : Prop :=
  exists a, Forall atext a /\ (s = a \/ exists t, s = a ++ [46] ++ t /\ dot_string t).

Lemma dot_string_cases : forall s, dot_string s <->
  exists c s', s = c :: s' /\ atext c /\ atom_rest s'.
Proof.
  intros s. unfold dot_string, atom_rest. split.
  - intros ([|a [|a2 atoms]] & Hn & H & ->); [congruence| |].
    + inv H. destruct H2 as [X Y]. destruct a as [|c a]; [congruence|]. inv Y.
      exists c, a. repeat split; auto. exists a. auto.
    + apply Forall_cons_iff in H. destruct H as [[X Y] H]. destruct a as [|c a]; [congruence|]. inv Y.
      exists c, (a ++ [46] ++ dotted (a2 :: atoms)). repeat split; auto. exists a. split; auto. right.
      exists (dotted (a2 :: atoms)). split; auto. exists (a2 :: atoms). repeat split; auto. discriminate.
  - intros (c & s' & -> & Hc & a & Ha & [->|(t & -> & atoms & Hn & H & ->)]).
    + exists [c :: a]. repeat split; [discriminate|]. constructor; auto. split; [discriminate|auto].
    + exists ((c :: a) :: atoms). repeat split; [discriminate| |].
      * constructor; auto. split; [discriminate|auto].
      * destruct atoms; [congruence|]. auto.
Qed.

Lemma atom_rest_cases : forall s, atom_rest s <->
  s = [] \/ (exists c s', s = c :: s' /\ atext c /\ atom_rest s') \/ (exists s', s = 46 :: s' /\ dot_string s').
Proof.
  intros s. split.
  - intros (a & Ha & H). destruct a as [|c a].
    + destruct H as [->|(t & -> & H)]; auto. right. right. exists t. auto.
    + apply Forall_cons_iff in Ha. destruct Ha as [Hc Ha]. right. left. destruct H as [->|(t & -> & H)].
      * exists c, a. repeat split; auto. exists a. auto.
      * exists c, (a ++ [46] ++ t). repeat split; auto. exists a. split; auto. right. eauto.
  - intros [->|[(c & s' & -> & Hc & a & Ha & H)|(s' & -> & H)]].
    + exists []. auto.
    + exists (c :: a). split; auto. destruct H as [->|(t & -> & H)]; auto. right. exists t. auto.
    + exists []. split; auto. right. exists s'. auto.
Qed.

Lemma dot_loop_spec : forall s,
  (dot_loop true s = true <-> dot_string s) /\ (dot_loop false s = true <-> atom_rest s).
Proof.
  induction s as [|c s [IH1 IH2]].
  - split; simpl.
    + split; [discriminate|]. rewrite dot_string_cases. intros (c & s' & E & _). discriminate.
    + split; auto. intros _. apply atom_rest_cases. auto.
  - split; cbn [dot_loop].
    + rewrite dot_string_cases. destruct (is_atext c) eqn:E.
      * rewrite IH2. apply is_atext_iff in E. split; [eauto 6|]. intros (c' & s' & X & _ & H). inv X. auto.
      * split; [discriminate|]. intros (c' & s' & X & H & _). inv X. apply is_atext_iff in H. congruence.
    + rewrite atom_rest_cases. destruct (c =? 46) eqn:E46.
      * apply N.eqb_eq in E46. subst. rewrite IH1. split; [eauto|].
        intros [X|[(c & s' & X & H & _)|(s' & X & H)]]; [discriminate| |inv X; auto].
        inv X. apply atext_not_dot in H. lia.
      * apply N.eqb_neq in E46. destruct (is_atext c) eqn:E; simpl.
        -- apply is_atext_iff in E. rewrite IH2. split; [eauto 8|].
           intros [X|[(c' & s' & X & H & H2)|(s' & X & H)]]; [discriminate|inv X; auto|inv X; congruence].
        -- split; [discriminate|].
           intros [X|[(c' & s' & X & H & H2)|(s' & X & H)]]; [discriminate| |inv X; congruence].
           inv X. apply is_atext_iff in H. congruence.
Qed.

Lemma quoted_loop_spec : forall s,
  (quoted_loop false s = true <-> qcontent s) /\
  (quoted_loop true s = true <-> exists c s', s = c :: s' /\ 32 <= c <= 126 /\ qcontent s').
Proof.
  induction s as [|c s [IH1 IH2]].
  - simpl. split; split; try discriminate; auto.
    + intros _. constructor.
    + intros (c & s' & E & _). discriminate.
  - assert (is_qtext_smtp c = true <-> (32 <= c <= 126 /\ c <> 34 /\ c <> 92) \/ 128 <= c) as Q.
    { unfold is_qtext_smtp, is_ascii_graphic, in_range, is_ascii. lia. }
    assert ((c =? 32) || is_ascii_graphic c = true <-> 32 <= c <= 126) as P.
    { unfold is_ascii_graphic, in_range. lia. }
    split; cbn [quoted_loop].
    + destruct (c =? 92) eqn:E92.
      * apply N.eqb_eq in E92. subst. rewrite IH2. split.
        -- intros (c & s' & -> & H1 & H2). apply qc_pair; auto.
        -- intros H. inv H; [lia|]. eauto.
      * apply N.eqb_neq in E92. destruct (is_qtext_smtp c) eqn:E; simpl.
        -- rewrite IH1. split.
           ++ intros H. apply qc_text; auto. apply Q. auto.
           ++ intros H. inv H; [auto|congruence].
        -- split; [discriminate|]. intros H. inv H; [|congruence]. apply Q in H2. congruence.
    + destruct ((c =? 32) || is_ascii_graphic c) eqn:E.
      * rewrite IH1. assert (32 <= c <= 126) by (apply P; auto). split; [eauto|]. intros (c' & s' & X & _ & H'). inv X. auto.
      * split; [discriminate|]. intros (c' & s' & X & H & _). inv X. apply P in H. congruence.
Qed.

Lemma is_quoted_string_spec : forall s, is_quoted_string s = true <-> quoted_string s.
Proof.
  intros s. unfold is_quoted_string, quoted_string. split.
  - destruct (strip_prefix_char 34 s) as [s1|] eqn:E1; [|discriminate].
    destruct (strip_suffix_if (N.eqb 34) s1) as [s2|] eqn:E2; [|discriminate].
    intros H. apply quoted_loop_spec in H. exists s2. split; auto.
    assert (s = 34 :: s1) as ->.
    { destruct s as [|c s]; [discriminate|]. unfold strip_prefix_char in E1. simpl in E1.
      destruct (34 =? c) eqn:E; [|discriminate]. apply N.eqb_eq in E. congruence. }
    simpl. f_equal. unfold strip_suffix_if in E2. destruct (snoc_cases _ s1) as [->|(s' & c & ->)]; [discriminate|].
    rewrite rev_app_distr in E2. simpl in E2. destruct (34 =? c) eqn:E; [|discriminate]. apply N.eqb_eq in E.
    simpl in E2. rewrite rev_involutive in E2. congruence.
  - intros (q & -> & H). unfold strip_prefix_char. simpl. unfold strip_suffix_if. rewrite rev_app_distr. simpl.
    rewrite rev_involutive. apply quoted_loop_spec. auto.
Qed.

Lemma is_local_part_spec : forall s, is_local_part s = true <-> local_part s.
Proof.
  intros s. unfold is_local_part, local_part. fold (str_len s).
  destruct (Nat.ltb 64 (str_len s)) eqn:EL.
  - apply Nat.ltb_lt in EL. split; [discriminate|]. intros [H _]. lia.
  - apply Nat.ltb_ge in EL. destruct (starts_with 34 s) eqn:E.
    + rewrite is_quoted_string_spec. split; [auto|]. intros [_ [H|H]]; auto. exfalso.
      apply starts_with_iff in E. destruct E as (s' & ->). apply dot_string_cases in H.
      destruct H as (c & s2 & X & H & _). inv X. apply atext_not_dot in H. lia.
    + unfold is_dot_string. rewrite (proj1 (dot_loop_spec s)). split; [auto|]. intros [_ [H|H]]; auto. exfalso.
      destruct H as (q & -> & _). discriminate.
Qed.

Lemma local_part_nonempty : forall s, local_part s -> s <> [].
Proof.
  intros s [_ [H|H]] ->.
  - apply dot_string_cases in H. destruct H as (c & s' & E & _). discriminate.
  - destruct H as (q & E & _). discriminate.
Qed.

Lemma identity_new_spec : forall s, exists r, identity_new idna s = Val r /\
  forall i, r = Some i <-> identity_text idna s i.
Proof.
  intros s. unfold identity_new, identity_text. pose proof (rsplit_once_spec 64 s) as S.
  destruct (rsplit_once 64 s) as [[l d]|] eqn:ES.
  - destruct S as [Es Hd].
    assert (forall l' d', s = l' ++ [64] ++ d' -> ~ In 64 d' -> l' = l /\ d' = d) as U.
    { intros l' d' E H. rewrite E in ES. simpl in ES. rewrite rsplit_once_app in ES by auto. inv ES. auto. }
    destruct (negb (is_nil l) && negb (is_local_part l)) eqn:EL.
    + apply andb_true_iff in EL. rewrite !negb_true_iff, is_nil_false in EL. destruct EL as [E1 E2].
      eexists. split; auto. intros i. split; [discriminate|]. intros (H1 & H2 & H3). exfalso.
      destruct (id_local_part i) as [l'|].
      * destruct H3 as [H3 H4]. apply U in H3; auto. destruct H3 as [-> _]. apply is_local_part_spec in H4. congruence.
      * apply (U [] (id_domain i)) in H3; auto. destruct H3 as [<- _]. congruence.
    + destruct (domain_new_spec d) as (r & -> & H). cbn [bind]. eexists. split; auto. intros i.
      rewrite andb_false_iff, !negb_false_iff, is_nil_true in EL. split.
      * destruct r as [d'|]; [|discriminate]. destruct (H d') as [H1 _]. destruct (H1 eq_refl) as [-> H2].
        intros X. inv X. simpl. split; auto. split; auto. destruct l as [|c l]; [reflexivity|].
        change (is_nil (c :: l)) with false. cbv iota. split; auto. apply is_local_part_spec. destruct EL; [discriminate|auto].
      * destruct i as [il id]. simpl. intros (H1 & H2 & H3). destruct il as [l'|].
        -- destruct H3 as [H3 H4]. apply U in H3; auto. destruct H3 as [-> ->].
           destruct (H d) as [_ X]. rewrite (X (conj eq_refl H2)).
           pose proof (local_part_nonempty _ H4). destruct l; [congruence|]. auto.
        -- apply (U [] id) in H3; auto. destruct H3 as [<- ->].
           destruct (H d) as [_ X]. rewrite (X (conj eq_refl H2)). auto.
  - eexists. split; auto. intros i. split; [discriminate|]. intros (_ & _ & H). exfalso. apply S.
    destruct (id_local_part i); [destruct H as [-> _]|rewrite H]; apply in_or_app; simpl; auto.
Qed.

Lemma domain_new_text : forall d, domain_new idna d = Val (Some d) -> domain_text idna d true.
Proof.
  intros d H. destruct (domain_new_spec d) as (r & E & X). rewrite E in H. injection H as ->. apply (X d). auto.
Qed.

Lemma label_suffix_trans : forall a b c, label_suffix a b -> label_suffix b c -> label_suffix a c.
Proof.
  intros a b c. rewrite !label_suffix_iff. intros (p & -> & H1) (q & -> & H2).
  exists (p ++ q). split; [apply app_assoc|]. destruct H2 as [->|(q' & ->)].
  - rewrite app_nil_r. auto.
  - right. exists (p ++ q'). apply app_assoc.
Qed.

Lemma subdomain_relation : idna_ignores_case idna ->
  let valid d := domain_new idna d = Val (Some d) in
  let sub a b := eq_or_subdomain_of idna a b = Val true in
  (forall a b, valid a -> valid b -> (sub a b <-> ascii_subdomain idna a b))
  /\ (forall a, valid a -> sub a a)
  /\ (forall a b c, valid a -> valid b -> valid c -> sub a b -> sub b c -> sub a c).
Proof.
  intros Hi valid sub.
  assert (forall a b, valid a -> valid b -> (sub a b <-> ascii_subdomain idna a b)) as X.
  { intros a b Ha Hb. apply domain_new_text in Ha. apply domain_new_text in Hb.
    destruct (eq_or_subdomain_spec a b true true Ha Hb) as (r & E & H). unfold sub. rewrite E.
    assert (Val r = Val true <-> r = true) as -> by (split; congruence). rewrite H. split; auto.
    intros [Y|Y]; auto. destruct (domain_text_ascii _ _ Ha) as (a' & Ea & _). destruct (domain_text_ascii _ _ Hb) as (b' & Eb & _).
    exists a', b'. split; auto. split; auto. rewrite (Hi a b a' b') by auto. apply label_suffix_iff. exists []. auto. }
  split; auto. split.
  - intros a Ha. unfold sub, eq_or_subdomain_of, domain_eqb. rewrite eqic_refl. auto.
  - intros a b c Ha Hb Hc. rewrite !X by auto. intros (a' & b' & E1 & E2 & L1) (b2 & c' & E3 & E4 & L2).
    rewrite E2 in E3. inv E3. exists a', c'. split; auto. split; auto. eapply label_suffix_trans; eauto.
Qed.

Lemma conversions : forall s d,
  domain_new idna s = Val (Some d) \/ selector_new idna s = Val (Some d) ->
  exists a, domain_to_ascii idna d = Val a /\ idna_to_ascii idna s = Some a /\ dns_name a false
    /\ idna_to_unicode idna s = (domain_to_unicode idna d, true).
Proof.
  intros s d H.
  assert (exists tld, d = s /\ domain_text idna s tld) as (tld & -> & (a & Ea & Na) & (t & Et)).
  { destruct H as [H|H].
    - destruct (domain_new_spec s) as (r & E & X). rewrite E in H. injection H as ->. exists true. apply X. auto.
    - destruct (selector_new_spec s) as (r & E & X). rewrite E in H. injection H as ->. exists false. apply X. auto. }
  exists a. unfold domain_to_ascii, domain_to_unicode. rewrite Ea, Et. repeat split; auto; try apply Na.
  destruct Na as (_ & init & final & E & H1 & _). exists init, final. repeat split; auto. discriminate.
Qed.

End WithIdna.
