(** Lemmas on equality and hashing of names. *)

From Coq Require Import List.
From Verif Require Import Base Utf8 Canon Domain Names SpecCanon SpecDomain SpecNames Lib Utf8Proofs DomainProofs.

Lemma same_letter_lower : forall c d, ascii_lower c = ascii_lower d <-> same_letter c d.
Proof.
  intros c d. unfold ascii_lower. split.
  - unfold is_ascii_upper, in_range. destruct ((65 <=? c) && (c <=? 90)) eqn:C; destruct ((65 <=? d) && (d <=? 90)) eqn:D; intros H.
    + replace d with c by lia. constructor.
    + subst d. constructor. lia.
    + subst c. constructor. lia.
    + subst. constructor.
  - unfold is_ascii_upper, in_range. intros [|c' ?|c' ?]; [reflexivity| |].
    + replace ((65 <=? c') && (c' <=? 90)) with true by lia. replace ((65 <=? c' + 32) && (c' + 32 <=? 90)) with false by lia. reflexivity.
    + replace ((65 <=? c') && (c' <=? 90)) with true by lia. replace ((65 <=? c' + 32) && (c' + 32 <=? 90)) with false by lia. reflexivity.
Qed.

Lemma same_letters_lower : forall a b, to_ascii_lowercase a = to_ascii_lowercase b <-> same_letters a b.
Proof.
  induction a as [|c a IH]; intros [|d b]; cbn [to_ascii_lowercase map]; split; intros H; try discriminate; try (inversion H; fail); try constructor; auto.
  - injection H as H1 H2. apply same_letter_lower. exact H1.
  - injection H as H1 H2. apply IH. exact H2.
  - inversion H; subst. f_equal; [apply same_letter_lower; assumption|apply IH; assumption].
Qed.

Lemma eqic_letters : forall a b, eq_ignore_ascii_case a b = true <-> same_letters a b.
Proof. intros. rewrite <- same_letters_lower. unfold eq_ignore_ascii_case. apply leqb_eq. Qed.

Lemma lower_scalar : forall s, Forall is_scalar s -> Forall is_scalar (to_ascii_lowercase s).
Proof.
  intros s H. apply Forall_map. eapply Forall_impl; [|exact H]. intros c X. unfold ascii_lower, is_ascii_upper, in_range.
  destruct ((65 <=? c) && (c <=? 90)) eqn:C; [|exact X]. unfold is_scalar in *. lia.
Qed.

Lemma lower_hash : forall a b, Forall is_scalar a -> Forall is_scalar b ->
  (str_hash (to_ascii_lowercase a) = str_hash (to_ascii_lowercase b) <-> same_letters a b).
Proof.
  intros a b A B. rewrite <- same_letters_lower. unfold str_hash. split; [|intros ->; reflexivity].
  intros H. injection H as H. apply as_bytes_inj in H; auto using lower_scalar.
Qed.

Lemma same_letters_refl : forall a, same_letters a a.
Proof. intros. apply same_letters_lower. reflexivity. Qed.
Lemma same_letters_sym : forall a b, same_letters a b -> same_letters b a.
Proof. intros a b H. apply same_letters_lower. apply same_letters_lower in H. auto. Qed.
Lemma same_letters_trans : forall a b c, same_letters a b -> same_letters b c -> same_letters a c.
Proof. intros a b c H H'. apply same_letters_lower. apply same_letters_lower in H. apply same_letters_lower in H'. congruence. Qed.

Lemma same_letters_lower_spec : forall a b, same_letters a b <-> lower a = lower b.
Proof. intros. rewrite <- eqic_letters. apply eqic_lower. Qed.

Lemma identity_eqb_iff : forall a b, identity_eqb a b = true <-> same_identity a b.
Proof.
  intros [la da] [lb db]. unfold identity_eqb, same_identity. cbn [id_local_part id_domain]. rewrite Bool.andb_true_iff. unfold domain_eqb. rewrite eqic_letters.
  destruct la as [la|], lb as [lb|]; cbn [local_part_eqb]; [rewrite leqb_eq| | |]; intuition (try congruence).
Qed.

Lemma header_eqb_iff : forall a b, header_eqb a b = true <-> same_header a b.
Proof.
  induction a as [|[n v] a IH]; intros [|[n' v'] b]; cbn [header_eqb]; split; intros H; try discriminate; try (inversion H; fail); try constructor; auto.
  - apply Bool.andb_true_iff in H as [H _]. apply Bool.andb_true_iff in H as [H1 H2]. cbn [fst snd] in *. split; [apply eqic_letters; exact H1|apply leqb_eq; exact H2].
  - apply Bool.andb_true_iff in H as [_ H]. apply IH. exact H.
  - inversion H as [|? ? ? ? [H1 H2] H3]; subst. cbn [fst snd] in *. apply Bool.andb_true_iff. split; [|apply IH; assumption].
    apply Bool.andb_true_iff. split; [apply eqic_letters; exact H1|apply leqb_eq; exact H2].
Qed.

Lemma identity_hash_iff : forall a b,
  Forall is_scalar (id_domain a) -> Forall is_scalar (id_domain b) ->
  (forall l, id_local_part a = Some l -> Forall is_scalar l) -> (forall l, id_local_part b = Some l -> Forall is_scalar l) ->
  (identity_hash a = identity_hash b <-> same_identity a b).
Proof.
  intros [la da] [lb db] A B LA LB. unfold identity_hash, same_identity, domain_hash. cbn [id_local_part id_domain] in *.
  destruct la as [la|], lb as [lb|].
  - specialize (LA _ eq_refl). specialize (LB _ eq_refl). cbn [app str_hash]. split.
    + intros H. injection H as H1 H2. split; [apply as_bytes_inj in H1; congruence|]. apply lower_hash; auto. unfold str_hash. rewrite H2. reflexivity.
    + intros [H1 H2]. injection H1 as ->. apply lower_hash in H2; auto. rewrite H2. reflexivity.
  - split; [intros H; discriminate|intros [H _]; discriminate].
  - split; [intros H; discriminate|intros [H _]; discriminate].
  - split.
    + intros H. injection H as H. split; [reflexivity|]. apply lower_hash; auto. unfold str_hash. rewrite H. reflexivity.
    + intros [_ H]. apply lower_hash in H; auto. rewrite H. reflexivity.
Qed.

Lemma header_hash_iff : forall a b,
  Forall (fun f => Forall is_scalar (fst f)) a -> Forall (fun f => Forall is_scalar (fst f)) b ->
  (header_hash a = header_hash b <-> same_header a b).
Proof.
  intros a b A B. unfold header_hash. split.
  - intros H. injection H as _ H. revert b B H. induction A as [|[n v] a X A IH]; intros b B H.
    + destruct b as [|[n' v'] b]; [constructor|discriminate].
    + destruct B as [|[n' v'] b Y B]; [discriminate|]. cbn [fst snd] in *. cbn [flat_map field_hash name_hash str_hash app fst snd] in H. unfold name_hash, str_hash in H. cbn [app] in H.
      injection H as H1 H2 H3 H4. constructor; [|apply IH; assumption]. cbn [fst snd]. split; [|exact H3].
      apply lower_hash; auto. unfold str_hash. rewrite H1. reflexivity.
  - intros H. f_equal.
    + f_equal. clear A B. induction H; cbn [length]; congruence.
    + induction H as [|[n v] [n' v'] a b [H1 H2] H IH]; [reflexivity|]. inversion A; inversion B; subst. cbn [fst snd] in *. subst v'.
      cbn [flat_map]. rewrite IH by assumption. unfold field_hash, name_hash. cbn [fst snd]. apply lower_hash in H1; auto. rewrite H1. reflexivity.
Qed.

Lemma ascii_subdomain_same : forall idna a b c d, idna_ignores_case idna ->
  domain_text idna a true -> domain_text idna b true -> domain_text idna c true -> domain_text idna d true ->
  lower a = lower b -> lower c = lower d -> ascii_subdomain idna a c -> ascii_subdomain idna b d.
Proof.
  intros idna a b c d I A B C D L L' (x & y & X & Y & S).
  destruct B as ((x' & X' & _) & _). destruct D as ((y' & Y' & _) & _). exists x', y'. split; [exact X'|]. split; [exact Y'|].
  rewrite <- (I _ _ _ _ L X X'), <- (I _ _ _ _ L' Y Y'). exact S.
Qed.

Lemma same_domains : forall idna a b c d, idna_ignores_case idna ->
  domain_new idna a = Val (Some a) -> domain_new idna b = Val (Some b) -> domain_new idna c = Val (Some c) -> domain_new idna d = Val (Some d) ->
  same_letters a b -> same_letters c d ->
  (exists x y, domain_to_ascii idna a = Val x /\ domain_to_ascii idna b = Val y /\ same_letters x y)
  /\ eq_or_subdomain_of idna a c = eq_or_subdomain_of idna b d.
Proof.
  intros idna a b c d I A B C D S S'. apply domain_new_text in A, B, C, D. apply same_letters_lower_spec in S, S'. split.
  - destruct A as ((x & X & _) & _). destruct B as ((y & Y & _) & _). exists x, y. unfold domain_to_ascii. rewrite X, Y.
    split; [reflexivity|]. split; [reflexivity|]. apply same_letters_lower_spec. exact (I _ _ _ _ S X Y).
  - destruct (eq_or_subdomain_spec idna a c _ _ A C) as (r & -> & R). destruct (eq_or_subdomain_spec idna b d _ _ B D) as (q & -> & Q). f_equal.
    apply Bool.eq_true_iff_eq. rewrite R, Q. rewrite S, S'. split; (intros [X|X]; [left; exact X|right]).
    + exact (ascii_subdomain_same idna a b c d I A B C D S S' X).
    + exact (ascii_subdomain_same idna b a d c I B A D C (eq_sym S) (eq_sym S') X).
Qed.

Lemma no_conversion : forall idna d, idna_to_ascii idna d = None ->
  domain_to_ascii idna d = Panic /\ ~ domain_text idna d true /\ ~ domain_text idna d false.
Proof.
  intros idna d H. split; [unfold domain_to_ascii; rewrite H; reflexivity|].
  split; intros ((a & X & _) & _); rewrite H in X; discriminate X.
Qed.
