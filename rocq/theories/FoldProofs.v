(** Lemmas for C102: changes of whitespace in a signature's field. *)

From Coq Require Import String List.
From Verif Require Import Base Utf8 Canon BodyHash Header Domain Signature KeyRecord Crypto TagList Sign Verify
  SpecText SpecCanon SpecHash SpecHeader SpecTag SpecDomain SpecSig SpecSign SpecVerify SpecOutput SpecEnd SpecDkim SpecTransit SpecFold
  Utf8Proofs HeaderCanonProofs Base64Proofs TagListProofs SigProofs OriginalProofs VerifyProofs VerifyFacts EndProofs DkimProofs TransitProofs DebugParsed Lib.
Import ListNotations.
Open Scope N_scope.

(** ** Whitespace *)

Definition black (s : str) : Prop := Forall (fun c => white c = false) s.

Lemma fws_white : forall f, fws f -> f <> [] /\ Forall (fun c => white c = true) f.
Proof.
  assert (forall w, wsps w -> Forall (fun c => white c = true) w) as W.
  { intros w. apply Forall_impl. intros c [->| ->]; reflexivity. }
  intros f (w & Hw & N & [->|(w0 & H0 & ->)]); [auto|]. split; [destruct w0; discriminate|].
  apply Forall_app. split; [auto|]. repeat (constructor; [reflexivity|]). auto.
Qed.

Lemma ofws_white : forall f, ofws f -> Forall (fun c => white c = true) f.
Proof. intros f [->|H]; [constructor|]. apply (fws_white f H). Qed.

(** white text before the black character of other text *)
Lemma white_before : forall f t a c b, Forall (fun c => white c = true) f -> white c = false ->
  f ++ t = a ++ c :: b -> exists a', a = f ++ a' /\ t = a' ++ c :: b.
Proof.
  induction f as [|x f IH]; intros t a c b F N H; [exists a; auto|]. inversion F; subst. destruct a as [|y a]; cbn in H; inversion H; subst; [congruence|].
  destruct (IH t a c b) as (a' & -> & ->); auto. exists a'. auto.
Qed.

Lemma white_same : forall f g t u, Forall (fun c => white c = true) f -> Forall (fun c => white c = true) g ->
  starts_black t -> starts_black u -> f ++ t = g ++ u -> f = g /\ t = u.
Proof.
  induction f as [|x f IH]; intros [|y g] t u F G T U H.
  - auto.
  - cbn in H. subst t. cbn in T. inversion G. congruence.
  - cbn in H. subst u. cbn in U. inversion F. congruence.
  - inversion H; subst. inversion F; inversion G; subst. destruct (IH g t u) as [-> ->]; auto.
Qed.

Lemma all_white_black : forall f, Forall (fun c => white c = true) f -> starts_black f -> f = [].
Proof. intros [|c f] H B; [reflexivity|]. cbn in B. inversion H. congruence. Qed.

(** ** Taking refolded text apart *)

Lemma refolded_nil : forall s', refolded [] s' -> s' = [].
Proof. intros s' H. inversion H; subst; [reflexivity|]. apply fws_white in H1. apply app_eq_nil in H0. tauto. Qed.

Lemma refolded_sym : forall s s', refolded s s' -> refolded s' s.
Proof.
  assert (forall s s', refolded s s' -> starts_black s -> starts_black s') as B.
  { intros s s' H. destruct H as [|c s s' C H|f f' s s' F F' S H]; intros X; cbn in *; [exact I|exact X|].
    destruct (fws_white f F) as [N W]. destruct f as [|c f]; [contradiction|]. cbn in X. inversion W. congruence. }
  intros s s' H. induction H; constructor; auto. eapply B; eassumption.
Qed.

Lemma refolded_starts : forall s s', refolded s s' -> starts_black s -> starts_black s'.
Proof.
  intros s s' H. destruct H as [|c s s' C H|f f' s s' F F' S H]; intros X; cbn in *; [exact I|exact X|].
  destruct (fws_white f F) as [N W]. destruct f as [|c f]; [contradiction|]. cbn in X. inversion W. congruence.
Qed.

Lemma refolded_at : forall a c b s', refolded (a ++ c :: b) s' -> white c = false ->
  exists a' b', s' = a' ++ c :: b' /\ refolded a a' /\ refolded b b'.
Proof.
  intros a c b s' H C. remember (a ++ c :: b) as s eqn:E. revert a E.
  induction H as [|x s s' X H IH|f f' s s' F F' S H IH]; intros a E.
  - destruct a; discriminate E.
  - destruct a as [|y a]; cbn in E; inversion E; subst.
    + exists [], s'. split; [reflexivity|]. split; [constructor|exact H].
    + destruct (IH a eq_refl) as (a' & b' & -> & A & B). exists (y :: a'), b'. split; [reflexivity|]. split; [constructor; assumption|exact B].
  - destruct (fws_white f F) as [_ W]. destruct (white_before _ _ _ _ _ W C E) as (a1 & -> & E1).
    destruct (IH a1 E1) as (a' & b' & -> & A & B). exists (f' ++ a'), b'. split; [rewrite <- app_assoc; reflexivity|]. split; [|exact B].
    constructor; try assumption. subst s. destruct a1; [exact I|exact S].
Qed.

Lemma refolded_cons : forall c b s', refolded (c :: b) s' -> white c = false -> exists b', s' = c :: b' /\ refolded b b'.
Proof.
  intros c b s' H C. destruct (refolded_at [] c b s' H C) as (a' & b' & -> & A & B). apply refolded_nil in A. subst. exists b'. auto.
Qed.

Lemma refolded_prefix : forall n b s', refolded (n ++ b) s' -> black n -> exists b', s' = n ++ b' /\ refolded b b'.
Proof.
  induction n as [|c n IH]; intros b s' H B; [exists s'; auto|]. inversion B; subst. destruct (refolded_cons _ _ _ H) as (x & -> & H'); [assumption|].
  destruct (IH _ _ H') as (b' & -> & R); [assumption|]. exists b'. auto.
Qed.

Lemma refolded_black : forall n n', refolded n n' -> black n -> n' = n.
Proof.
  intros n n' H B. rewrite <- (app_nil_r n) in H. destruct (refolded_prefix _ _ _ H B) as (b' & -> & R). apply refolded_nil in R. subst. apply app_nil_r.
Qed.

Lemma refolded_fws : forall f f', refolded f f' -> ofws f -> ofws f'.
Proof.
  intros f f' H O. inversion H; subst.
  - left. reflexivity.
  - apply ofws_white in O. inversion O. congruence.
  - apply ofws_white in O. apply Forall_app in O as [_ O]. rewrite (all_white_black s O H2) in H3. apply refolded_nil in H3. subst. rewrite app_nil_r. right. assumption.
Qed.

Lemma refolded_join : forall a a' b b', refolded a a' -> refolded b b' -> starts_black b -> refolded (a ++ b) (a' ++ b').
Proof.
  intros a a' b b' H. induction H; intros R S; [exact R|constructor; auto|]. rewrite <- !app_assoc. constructor; auto.
  destruct s; [exact S|assumption].
Qed.

Lemma refolded_refl_fws : forall f, ofws f -> refolded f f.
Proof. intros f [->|F]; [constructor|]. rewrite <- (app_nil_r f). constructor; auto; [exact I|constructor]. Qed.

Lemma refolded_in : forall s s' c, refolded s s' -> white c = false -> In c s' -> In c s.
Proof.
  intros s s' c H C. induction H as [|x s s' X H IH|f f' s s' F F' S H IH]; intros I.
  - exact I.
  - destruct I as [->|I]; [left; reflexivity|right; auto].
  - apply in_or_app. apply in_app_or in I as [I|I]; [|auto]. destruct (fws_white f' F') as [_ W].
    rewrite Forall_forall in W. specialize (W c I). congruence.
Qed.

(** ** Words *)

Lemma white_char : forall c, is_scalar c -> white c = false -> Forall (fun b => white b = false) (utf8_char c).
Proof.
  intros c S W. destruct (N.lt_ge_cases c 128) as [L|G].
  - rewrite utf8_char_ascii by assumption. auto.
  - unfold utf8_char. destruct (c <? 128) eqn:X; [lia|]. unfold white. repeat match goal with |- context [if ?b then _ else _] => destruct b end;
    repeat constructor; rewrite !orb_false_iff, !N.eqb_neq; repeat split; lia.
Qed.

Lemma words_black : forall w cur x, Forall (fun b => white b = false) w -> words_from cur (w ++ x) = words_from (cur ++ w) x.
Proof.
  induction w as [|b w IH]; intros cur x H; [rewrite app_nil_r; reflexivity|]. inversion H; subst. cbn [app words_from]. rewrite H2, IH by assumption.
  rewrite <- app_assoc. reflexivity.
Qed.

Lemma words_white : forall f cur x, f <> [] -> Forall (fun c => white c = true) f ->
  words_from cur (f ++ x) = match cur with [] => [] | _ => [cur] end ++ words_from [] x.
Proof.
  assert (forall f x, Forall (fun c => white c = true) f -> words_from [] (f ++ x) = words_from [] x) as X.
  { induction f as [|b f IH]; intros x H; [reflexivity|]. inversion H; subst. cbn [app words_from]. rewrite H2. auto. }
  intros [|b f] cur x N H; [contradiction|]. inversion H; subst. cbn [app words_from]. rewrite H2, X by assumption. destruct cur; reflexivity.
Qed.

Lemma white_bytes : forall f, Forall (fun c => white c = true) f -> as_bytes f = f.
Proof.
  induction 1 as [|c f C F IH]; [reflexivity|]. change (as_bytes (c :: f)) with (utf8_char c ++ as_bytes f). rewrite IH, utf8_char_ascii; [reflexivity|].
  unfold white in C. lia.
Qed.

Lemma refolded_words : forall s s', refolded s s' -> Forall is_scalar s -> forall cur, words_from cur (as_bytes s) = words_from cur (as_bytes s').
Proof.
  intros s s' H. induction H as [|c s s' C H IH|f f' s s' F F' S H IH]; intros Sc cur; [reflexivity| |].
  - inversion Sc; subst. change (as_bytes (c :: s)) with (utf8_char c ++ as_bytes s). change (as_bytes (c :: s')) with (utf8_char c ++ as_bytes s').
    rewrite !words_black by (apply white_char; assumption). auto.
  - apply Forall_app in Sc as [_ Sc]. destruct (fws_white f F) as [N W]. destruct (fws_white f' F') as [N' W']. rewrite !as_bytes_app, (white_bytes f), (white_bytes f') by assumption.
    rewrite (words_white f), (words_white f') by assumption. rewrite IH by assumption. reflexivity.
Qed.

Lemma refolded_scalar : forall s s', refolded s s' -> Forall is_scalar s -> Forall is_scalar s'.
Proof.
  intros s s' H. induction H; intros Sc; [constructor|inversion Sc; constructor; auto|]. apply Forall_app in Sc as [_ Sc]. apply Forall_app. split; [|auto].
  destruct (fws_white f' H0) as [_ W]. revert W. apply Forall_impl. intros c C. unfold white in C. unfold is_scalar. lia.
Qed.

(** ** Lists of tags *)

Lemma valchar_black : forall c, valchar c -> white c = false.
Proof. intros c H. unfold valchar in H. unfold white. lia. Qed.

Lemma name_black : forall n, tag_name_text n -> exists c n', n = c :: n' /\ white c = false /\ black n'.
Proof.
  intros n (c & n' & -> & A & F). exists c, n'. split; [reflexivity|]. unfold alpha in A. split; [unfold white; lia|].
  revert F. apply Forall_impl. intros x X. unfold alnum_, alpha in X. unfold white. lia.
Qed.

Lemma value_first : forall v, tag_value_text v -> exists c v', v = c :: v' /\ white c = false.
Proof. intros v H. destruct H; eexists _, _; (split; [reflexivity|apply valchar_black; assumption]). Qed.

Lemma value_last : forall v, tag_value_text v -> exists u d, v = u ++ [d] /\ white d = false.
Proof.
  intros v H. induction H as [c C|c f v C F H IH].
  - exists [], c. split; [reflexivity|apply valchar_black; assumption].
  - destruct IH as (u & d & -> & D). exists (c :: f ++ u), d. split; [cbn; rewrite <- app_assoc; reflexivity|exact D].
Qed.

Lemma refolded_value : forall v, tag_value_text v -> forall v', refolded v v' -> tag_value_text v'.
Proof.
  intros v H. induction H as [c C|c f v C F H IH]; intros v' R.
  - apply refolded_black in R; [subst; constructor; exact C|]. constructor; [apply valchar_black; exact C|constructor].
  - destruct (refolded_cons _ _ _ R (valchar_black _ C)) as (x & -> & R1). destruct (value_first _ H) as (d & v1 & -> & D).
    destruct (refolded_at _ _ _ _ R1 D) as (f' & v1' & -> & Rf & Rv). apply tv_cons; [exact C|eapply refolded_fws; eassumption|].
    apply IH. constructor; assumption.
Qed.

(** name and equals sign *)
Lemma refolded_name : forall f1 n f2 rest s', ofws f1 -> ofws f2 -> tag_name_text n -> refolded (f1 ++ n ++ f2 ++ [61] ++ rest) s' ->
  exists f1' f2' rest', ofws f1' /\ ofws f2' /\ s' = f1' ++ n ++ f2' ++ [61] ++ rest' /\ refolded f1 f1' /\ refolded f2 f2' /\ refolded rest rest'.
Proof.
  intros f1 n f2 rest s' F1 F2 N R. destruct (name_black n N) as (c & n' & -> & C & B).
  destruct (refolded_at f1 c (n' ++ f2 ++ [61] ++ rest) s' R C) as (f1' & x & -> & R1 & Rx).
  destruct (refolded_prefix _ _ _ Rx B) as (y & -> & Ry). destruct (refolded_at f2 61 rest y Ry eq_refl) as (f2' & rest' & -> & R2 & R3).
  exists f1', f2', rest'. split; [eapply refolded_fws; eassumption|]. split; [eapply refolded_fws; eassumption|]. split; [reflexivity|]. auto.
Qed.

Lemma refolded_around : forall f3 v f4 s', ofws f3 -> ofws f4 -> tag_value_text v -> refolded (f3 ++ v ++ f4) s' ->
  exists f3' v' f4', ofws f3' /\ ofws f4' /\ s' = f3' ++ v' ++ f4' /\ refolded v v'.
Proof.
  intros f3 v f4 s' F3 F4 V R. destruct (value_last v V) as (u & d & Ev & D). rewrite Ev in R.
  replace (f3 ++ (u ++ [d]) ++ f4) with ((f3 ++ u) ++ d :: f4) in R by (rewrite <- !app_assoc; reflexivity).
  destruct (refolded_at _ _ _ _ R D) as (x & f4' & -> & Rx & R4).
  destruct (value_first v V) as (c & v1 & Ev1 & C).
  assert (refolded (f3 ++ v) (x ++ [d])) as R'.
  { rewrite Ev, app_assoc. apply refolded_join; [exact Rx|constructor; [exact D|constructor]|exact D]. }
  rewrite Ev1 in R'. destruct (refolded_at _ _ _ _ R' C) as (f3' & v1' & Ex & R3 & Rv).
  exists f3', (c :: v1'), f4'. split; [eapply refolded_fws; eassumption|]. split; [eapply refolded_fws; eassumption|].
  split; [|rewrite Ev1; constructor; assumption].
  replace (x ++ d :: f4') with ((x ++ [d]) ++ f4') by (rewrite <- app_assoc; reflexivity). rewrite Ex, <- app_assoc. reflexivity.
Qed.

Lemma refolded_spec : forall s n v s', tag_spec_text s n v -> refolded s s' -> exists v', tag_spec_text s' n v' /\ refolded v v'.
Proof.
  intros s n v s' H R. destruct H as [f1 f2 f3 n F1 F2 F3 N|f1 f2 f3 f4 n v F1 F2 F3 F4 N V].
  - destruct (refolded_name _ _ _ _ _ F1 F2 N R) as (f1' & f2' & f3' & F1' & F2' & -> & _ & _ & R3). exists []. split; [|constructor].
    constructor; try assumption. eapply refolded_fws; eassumption.
  - destruct (refolded_name _ _ _ _ _ F1 F2 N R) as (f1' & f2' & x & F1' & F2' & -> & _ & _ & R3).
    destruct (refolded_around _ _ _ _ F3 F4 V R3) as (f3' & v' & f4' & F3' & F4' & -> & Rv). exists v'. split; [|exact Rv].
    constructor; try assumption. eapply refolded_value; eassumption.
Qed.

Lemma refolded_tags : forall s tags, tag_list_text s tags -> forall s', refolded s s' ->
  exists tags', tag_list_text s' tags' /\ Forall2 same_tag tags tags'.
Proof.
  intros s tags H. induction H as [s n v H|s n v H|s n v t tags H T IH]; intros s' R.
  - destruct (refolded_spec _ _ _ _ H R) as (v' & H' & Rv). exists [(n, v')]. split; [constructor; exact H'|]. repeat constructor. exact Rv.
  - destruct (refolded_at _ _ _ _ R eq_refl) as (a & b & -> & Ra & Rb). apply refolded_nil in Rb. subst b.
    destruct (refolded_spec _ _ _ _ H Ra) as (v' & H' & Rv). exists [(n, v')]. split; [apply tl_semi; exact H'|]. repeat constructor. exact Rv.
  - destruct (refolded_at s 59 t s' R eq_refl) as (a & b & -> & Ra & Rb). destruct (refolded_spec _ _ _ _ H Ra) as (v' & H' & Rv).
    destruct (IH b Rb) as (tags' & T' & F). exists ((n, v') :: tags'). split; [apply (tl_cons a n v' b tags'); assumption|]. constructor; [split; [reflexivity|exact Rv]|exact F].
Qed.

(** whitespace at the start *)
Lemma spec_leading : forall s n v f f' m, tag_spec_text s n v -> ofws f -> ofws f' -> forall z, s ++ z = f ++ m -> starts_black m ->
  exists s', tag_spec_text s' n v /\ s' ++ z = f' ++ m.
Proof.
  intros s n v f f' m H F F' z E B. destruct H as [f1 f2 f3 n F1 F2 F3 N|f1 f2 f3 f4 n v F1 F2 F3 F4 N V]; destruct (name_black n N) as (c & n' & -> & C & _).
  - destruct (white_same f1 f (((c :: n') ++ f2 ++ [61] ++ f3) ++ z) m) as [-> <-]; auto using ofws_white.
    + rewrite <- E, <- !app_assoc. reflexivity.
    + exists (f' ++ (c :: n') ++ f2 ++ [61] ++ f3). split; [constructor; assumption|rewrite <- !app_assoc; reflexivity].
  - destruct (white_same f1 f (((c :: n') ++ f2 ++ [61] ++ f3 ++ v ++ f4) ++ z) m) as [-> <-]; auto using ofws_white.
    + rewrite <- E, <- !app_assoc. reflexivity.
    + exists (f' ++ (c :: n') ++ f2 ++ [61] ++ f3 ++ v ++ f4). split; [constructor; assumption|rewrite <- !app_assoc; reflexivity].
Qed.

Lemma tags_leading : forall f f' m tags, tag_list_text (f ++ m) tags -> ofws f -> ofws f' -> starts_black m -> tag_list_text (f' ++ m) tags.
Proof.
  intros f f' m tags H F F' B. remember (f ++ m) as s eqn:E. destruct H as [s n v H|s n v H|s n v t tags H T].
  - destruct (spec_leading _ _ _ _ _ _ H F F' [] ltac:(rewrite app_nil_r; exact E) B) as (s' & H' & X). rewrite app_nil_r in X. subst. constructor. exact H'.
  - destruct (spec_leading _ _ _ _ _ _ H F F' [59] E B) as (s' & H' & <-). apply tl_semi. exact H'.
  - destruct (spec_leading _ _ _ _ _ _ H F F' ([59] ++ t) E B) as (s' & H' & <-). apply tl_cons; assumption.
Qed.

Lemma folding_tags : forall s s' tags, tag_list_text s tags -> same_folding s s' -> exists tags', tag_list_text s' tags' /\ Forall2 same_tag tags tags'.
Proof.
  intros s s' tags H (f & f' & m & m' & F & F' & B & R & -> & ->).
  destruct (refolded_tags _ _ H (f ++ m')) as (tags' & H' & T).
  { apply refolded_join; [apply refolded_refl_fws; exact F|exact R|exact B]. }
  exists tags'. split; [|exact T]. eapply tags_leading; [exact H'|exact F|exact F'|]. eapply refolded_starts; eassumption.
Qed.

(** ** Values of tags *)

Lemma lower_black : forall t, black (lower t) -> black t.
Proof.
  intros t. unfold lower, black. rewrite Forall_map. apply Forall_impl. intros c. destruct ((65 <=? c) && (c <=? 90)) eqn:X; [|auto].
  intros _. unfold white. lia.
Qed.

Ltac known_black := repeat constructor; reflexivity.

Lemma algorithm_black : forall pre t a, algorithm_text pre t a -> black t.
Proof. intros pre t a H. apply lower_black. destruct H as [H|H|_ H]; unfold SpecSig.named in H; rewrite H; vm_compute; repeat constructor. Qed.

Lemma canon_alg_black : forall t a, canon_alg_text t a -> black t.
Proof. intros t a H. apply lower_black. destruct H as [H|H]; unfold SpecSig.named in H; rewrite H; vm_compute; repeat constructor. Qed.

Lemma canonicalization_black : forall t c, canonicalization_text t c -> black t.
Proof.
  intros t c H. destruct H as [h b ch cb H1 H2|h ch H]; [|eapply canon_alg_black; eassumption].
  apply Forall_app. split; [eapply canon_alg_black; eassumption|]. constructor; [reflexivity|eapply canon_alg_black; eassumption].
Qed.

Lemma number_black : forall t n, number_text t n -> black t.
Proof.
  intros t n (digits & _ & D & E & _). assert (black digits) as B by (revert D; apply Forall_impl; intros c C; unfold white; lia).
  destruct E as [->| ->]; [exact B|constructor; [reflexivity|exact B]].
Qed.

Lemma domain_black : forall idna d b, idna_keeps idna -> domain_text idna d b -> black d.
Proof. intros idna d b K H. apply domain_host in H; [|exact K]. revert H. apply Forall_impl. intros c C. unfold DebugUnique.host_char, letter_digit in C. unfold white. lia. Qed.

Lemma field_name_black : forall n, field_name n -> black n.
Proof. intros n [_ H]. revert H. apply Forall_impl. intros c C. unfold ftext in C. unfold white. lia. Qed.

Lemma refolded_base64 : forall t t' bs, base64_text t bs -> refolded t t' -> base64_text t' bs.
Proof.
  intros t t' bs H R. apply base64_text_spec. apply base64_text_spec in H. rewrite <- H. unfold parse_base64_value. f_equal. symmetry.
  clear H. induction R as [|c s s' C R IH|f f' s s' F F' S R IH]; [reflexivity| |].
  - cbn [filter]. rewrite IH. reflexivity.
  - rewrite !filter_app, IH. f_equal. destruct (fws_white f F) as [_ W]. destruct (fws_white f' F') as [_ W'].
    assert (forall g, Forall (fun c => white c = true) g -> filter (fun c => negb (is_fws_char c)) g = []) as X.
    { induction 1 as [|c g G _ IHg]; [reflexivity|]. cbn [filter]. assert (is_fws_char c = true) as ->; [|exact IHg]. apply is_fws_char_iff. unfold white in G. unfold blank. lia. }
    rewrite !X by assumption. reflexivity.
Qed.

(** colon-separated lists *)
Lemma refolded_colons : forall raws t', refolded (colon_joined raws) t' -> raws <> [] ->
  exists raws', raws' <> [] /\ t' = colon_joined raws' /\ Forall2 refolded raws raws'.
Proof.
  induction raws as [|x raws IH]; intros t' R N; [contradiction|]. destruct raws as [|y raws].
  - exists [t']. split; [discriminate|]. split; [reflexivity|]. repeat constructor. exact R.
  - change (colon_joined (x :: y :: raws)) with (x ++ 58 :: colon_joined (y :: raws)) in R.
    destruct (refolded_at _ _ _ _ R eq_refl) as (x' & b' & -> & Rx & Rb). destruct (IH b' Rb ltac:(discriminate)) as (raws' & N' & -> & F).
    exists (x' :: raws'). split; [discriminate|]. split; [destruct raws'; [contradiction|reflexivity]|]. constructor; assumption.
Qed.

Lemma refolded_surrounded : forall raw item raw', surrounded raw item -> refolded raw raw' ->
  exists item', surrounded raw' item' /\ refolded item item'.
Proof.
  intros raw item raw' (f1 & f2 & F1 & F2 & -> & [[-> ->]|V]) R.
  - exists []. split; [|constructor]. exists raw', []. rewrite app_nil_r in R. repeat split; [eapply refolded_fws; eassumption|left; reflexivity|rewrite !app_nil_r; reflexivity|left; auto].
  - destruct (refolded_around _ _ _ _ F1 F2 V R) as (f1' & v' & f2' & F1' & F2' & -> & Rv). exists v'. split; [|exact Rv].
    exists f1', f2'. repeat split; try assumption. right. eapply refolded_value; eassumption.
Qed.

Lemma refolded_colon_list : forall t items t', colon_list t items -> refolded t t' ->
  exists items', colon_list t' items' /\ Forall2 refolded items items'.
Proof.
  intros t items t' (raws & N & -> & S & C) R. destruct (refolded_colons _ _ R N) as (raws' & N' & -> & F).
  assert (exists items', Forall2 surrounded raws' items' /\ Forall2 refolded items items') as (items' & S' & F').
  { clear - S F. revert raws' F. induction S as [|r i rs is H S IH]; intros raws' F; inversion F; subst; [exists []; split; constructor|].
    destruct (IH _ H4) as (items' & A & B). destruct (refolded_surrounded _ _ _ H H2) as (i' & A' & B'). exists (i' :: items'). split; constructor; assumption. }
  exists items'. split; [|exact F']. exists raws'. split; [exact N'|]. split; [reflexivity|]. split; [exact S'|].
  clear - C F'. induction F'; constructor; inversion C; subst; auto. intros X. apply H2. eapply refolded_in; [exact H|reflexivity|exact X].
Qed.

Lemma refolded_signed_headers : forall t names t', signed_headers_text t names -> refolded t t' -> signed_headers_text t' names.
Proof.
  intros t names t' [C F] R. destruct (refolded_colon_list _ _ _ C R) as (names' & C' & F'). assert (names' = names) as ->; [|split; assumption].
  clear - F F'. induction F'; [reflexivity|]. inversion F; subst. rewrite IHF' by assumption. rewrite (refolded_black _ _ H) by (apply field_name_black; assumption). reflexivity.
Qed.

Lemma refolded_query_methods : forall t ms t', query_methods_text t ms -> refolded t t' -> (exists m, In m ms /\ SpecSig.named m "dns/txt") ->
  exists ms', query_methods_text t' ms' /\ exists m, In m ms' /\ SpecSig.named m "dns/txt".
Proof.
  intros t ms t' [C N] R (m & I & M). destruct (refolded_colon_list _ _ _ C R) as (ms' & C' & F'). exists ms'. split; [split; [exact C'|]|].
  - intros X. apply N. clear - X F'. induction F'; [exact X|]. destruct X as [->|X]; [left|right; auto]. apply refolded_sym in H. apply refolded_nil in H. exact H.
  - exists m. split; [|exact M]. assert (black m) as B by (apply lower_black; rewrite M; vm_compute; repeat constructor).
    clear - I F' B. induction F'; [exact I|]. destruct I as [->|I]; [left; eapply refolded_black; eassumption|right; auto].
Qed.

(** quoted-printable *)
Lemma safe_black : forall c, dkim_safe c -> white c = false.
Proof. intros c H. unfold dkim_safe in H. unfold white. lia. Qed.
Lemma hex_black : forall c v, hexdigit c v -> white c = false.
Proof. intros c v H. destruct H; unfold white; lia. Qed.

Lemma qp_items_black : forall s bs, qp_items s bs -> starts_black s.
Proof. intros s bs H. destruct H; cbn; [exact I|apply safe_black; assumption|reflexivity]. Qed.

Lemma refolded_parts : forall f s t', ofws f -> starts_black s -> refolded (f ++ s) t' ->
  exists f' s', ofws f' /\ t' = f' ++ s' /\ refolded s s'.
Proof.
  intros f [|c s] t' F B R.
  - rewrite app_nil_r in R. exists t', []. split; [eapply refolded_fws; eassumption|]. split; [rewrite app_nil_r; reflexivity|constructor].
  - destruct (refolded_at _ _ _ _ R B) as (f' & s' & -> & Rf & Rs). exists f', (c :: s'). split; [eapply refolded_fws; eassumption|]. split; [reflexivity|].
    constructor; assumption.
Qed.

Lemma refolded_qp_items : forall s bs, qp_items s bs -> forall s', refolded s s' -> qp_items s' bs.
Proof.
  intros s bs H. induction H as [|c f s bs C F H IH|f1 c1 v1 f2 c2 v2 f3 s bs F1 C1 F2 C2 F3 H IH]; intros s' R.
  - apply refolded_nil in R. subst. constructor.
  - destruct (refolded_cons _ _ _ R (safe_black _ C)) as (x & -> & Rx). destruct (refolded_parts _ _ _ F (qp_items_black _ _ H) Rx) as (f' & y & F' & -> & Ry).
    constructor; auto.
  - destruct (refolded_cons _ _ _ R eq_refl) as (x & -> & Rx). destruct (refolded_at _ _ _ _ Rx (hex_black _ _ C1)) as (f1' & y & -> & R1 & Ry).
    destruct (refolded_at _ _ _ _ Ry (hex_black _ _ C2)) as (f2' & z & -> & R2 & Rz).
    destruct (refolded_parts _ _ _ F3 (qp_items_black _ _ H) Rz) as (f3' & u & F3' & -> & Ru).
    constructor; eauto using refolded_fws.
Qed.

Lemma refolded_qp : forall t t' bs, qp_text t bs -> refolded t t' -> qp_text t' bs.
Proof.
  intros t t' bs (f & s & F & -> & H) R. destruct (refolded_parts _ _ _ F (qp_items_black _ _ H) R) as (f' & s' & F' & -> & Rs).
  exists f', s'. split; [exact F'|]. split; [reflexivity|]. eapply refolded_qp_items; eassumption.
Qed.

Lemma refolded_bars : forall ps t', refolded (bar_joined ps) t' -> ps <> [] ->
  exists ps', ps' <> [] /\ t' = bar_joined ps' /\ Forall2 refolded ps ps'.
Proof.
  induction ps as [|x ps IH]; intros t' R N; [contradiction|]. destruct ps as [|y ps].
  - exists [t']. split; [discriminate|]. split; [reflexivity|]. repeat constructor. exact R.
  - change (bar_joined (x :: y :: ps)) with (x ++ 124 :: bar_joined (y :: ps)) in R.
    destruct (refolded_at _ _ _ _ R eq_refl) as (x' & b' & -> & Rx & Rb). destruct (IH b' Rb ltac:(discriminate)) as (ps' & N' & -> & F).
    exists (x' :: ps'). split; [discriminate|]. split; [destruct ps'; [contradiction|reflexivity]|]. constructor; assumption.
Qed.

Lemma refolded_copied : forall t hs t', copied_headers_text t hs -> refolded t t' -> copied_headers_text t' hs.
Proof.
  intros t hs t' (ps & N & B & -> & F) R. destruct (refolded_bars _ _ R N) as (ps' & N' & -> & F'). exists ps'. split; [exact N'|]. split.
  - clear - B F'. induction F'; constructor; inversion B; subst; auto. intros X. apply H2. eapply refolded_in; [exact H|reflexivity|exact X].
  - split; [reflexivity|]. clear - F F'. revert hs F. induction F'; intros hs F; inversion F; subst; constructor; auto.
    destruct y0 as [n v]. destruct H2 as [A Q]. split; [exact A|]. eapply refolded_qp; eassumption.
Qed.

Lemma refolded_identity : forall idna t i t', identity_tag_text idna t i -> refolded t t' -> identity_tag_text idna t' i.
Proof. intros idna t i t' (s & Sc & Q & T) R. exists s. split; [exact Sc|]. split; [eapply refolded_qp; eassumption|exact T]. Qed.

(** ** Signatures *)

Definition tag_pairs (tags : list TagSpec) : list (str * str) := map (fun t => (tag_name t, tag_value t)) tags.

Lemma get_same : forall name tags tags', Forall2 same_tag (tag_pairs tags) (tag_pairs tags') ->
  match get name tags with
  | Some t => exists t', get name tags' = Some t' /\ refolded t t'
  | None => get name tags' = None
  end.
Proof.
  intros name tags tags' H. unfold get. revert tags' H. induction tags as [|[n v] tags IH]; intros [|[n' v'] tags'] H; cbn in H; inversion H; subst; [reflexivity|].
  destruct H3 as [X Y]. cbn in X, Y. subst n'. cbn [tag_get tag_name tag_value]. destruct (leqb n (lit name)); [|apply IH; assumption]. exists v'. auto.
Qed.

Lemma ext_same : forall known tags tags', Forall2 same_tag (tag_pairs tags) (tag_pairs tags') ->
  Forall2 same_tag (ext_tags known tags) (ext_tags known tags').
Proof.
  intros known. induction tags as [|[n v] tags IH]; intros [|[n' v'] tags'] H; cbn in H; inversion H; subst; [constructor|].
  destruct H3 as [X Y]. cbn in X, Y. subst n'. cbn [ext_tags tag_name tag_value]. destruct (mem_str n known); [apply IH; assumption|]. constructor; [split; [reflexivity|exact Y]|apply IH; assumption].
Qed.

Lemma signature_same : forall pre idna tags tags' sig, idna_keeps idna -> Forall2 same_tag (tag_pairs tags) (tag_pairs tags') ->
  signature_of pre idna tags sig -> signature_of pre idna tags' (with_ext_tags (ext_tags known_sig_tags tags') sig).
Proof.
  intros pre idna tags tags' sig K F (V & (ta & A1 & A2) & (tb & B1 & B2 & B3) & (tbh & H1 & H2 & H3) & Cz & (D1 & D2) & (th & N1 & N2 & N3)
    & Id & Le & Qu & (S1 & S2) & Ts & Ex & Co & _ & R1 & R2).
  unfold signature_of, with_ext_tags.
  cbn [s_algorithm s_signature_data s_body_hash s_canonicalization s_domain s_signed_headers s_identity s_body_length s_selector s_timestamp s_expiration s_copied_headers s_ext_tags].
  assert (forall n t, get n tags = Some t -> exists t', get n tags' = Some t' /\ refolded t t') as G.
  { intros n t E. pose proof (get_same n _ _ F) as X. rewrite E in X. exact X. }
  assert (forall n t, get n tags = Some t -> black t -> get n tags' = Some t) as GB.
  { intros n t E B. destruct (G n t E) as (t' & E' & R). rewrite (refolded_black _ _ R B) in E'. exact E'. }
  assert (forall A (R : str -> A -> Prop) n v, (forall t t' x, R t x -> refolded t t' -> R t' x) -> optional R (get n tags) v -> optional R (get n tags') v) as GO.
  { intros A R n v X O. pose proof (get_same n _ _ F) as Y. destruct (get n tags) as [t|].
    - destruct Y as (t' & -> & Rt). destruct v; [|exact O]. cbn in *. eapply X; eassumption.
    - rewrite Y. exact O. }
  assert (forall t t' x, number_text t x -> refolded t t' -> number_text t' x) as NU.
  { intros t t' x H R. rewrite (refolded_black _ _ R (number_black _ _ H)). exact H. }
  split; [apply GB; [exact V|vm_compute; repeat constructor]|].
  split; [exists ta; split; [apply GB; [exact A1|eapply algorithm_black; eassumption]|exact A2]|].
  split; [destruct (G _ _ B1) as (t' & E' & R); exists t'; split; [exact E'|split; [eapply refolded_base64; eassumption|exact B3]]|].
  split; [destruct (G _ _ H1) as (t' & E' & R); exists t'; split; [exact E'|split; [eapply refolded_base64; eassumption|exact H3]]|].
  split; [pose proof (get_same "c" _ _ F) as Y; destruct (get "c" tags) as [t|]; [destruct Y as (t' & -> & R); rewrite (refolded_black _ _ R (canonicalization_black _ _ Cz)); exact Cz|rewrite Y; exact Cz]|].
  split; [split; [apply GB; [exact D1|eapply domain_black; eassumption]|exact D2]|].
  split; [destruct (G _ _ N1) as (t' & E' & R); exists t'; split; [exact E'|split; [eapply refolded_signed_headers; eassumption|exact N3]]|].
  split; [apply GO; [intros; eapply refolded_identity; eassumption|exact Id]|].
  split; [apply GO; [exact NU|exact Le]|].
  split; [pose proof (get_same "q" _ _ F) as Y; destruct (get "q" tags) as [t|]; [destruct Y as (t' & -> & R); destruct Qu as (ms & Q1 & Q2); eapply refolded_query_methods; eassumption|rewrite Y; exact I]|].
  split; [split; [apply GB; [exact S1|eapply domain_black; eassumption]|exact S2]|].
  split; [apply GO; [exact NU|exact Ts]|].
  split; [apply GO; [exact NU|exact Ex]|].
  split; [pose proof (get_same "z" _ _ F) as Y; destruct (get "z" tags) as [t|]; [destruct Y as (t' & -> & R); eapply refolded_copied; eassumption|rewrite Y; exact Co]|].
  split; [reflexivity|]. split; assumption.
Qed.

Lemma same_names : forall tags tags', Forall2 same_tag tags tags' -> map fst tags = map fst tags'.
Proof. induction 1 as [|t t' tags tags' [H _] _ IH]; [reflexivity|]. cbn [map]. rewrite H, IH. reflexivity. Qed.

Lemma folding_tags_of : forall s s' tags, tags_of s tags -> same_folding s s' ->
  exists tags', tags_of s' tags' /\ Forall2 same_tag (tag_pairs tags) (tag_pairs tags').
Proof.
  intros s s' tags [T ND] R. destruct (folding_tags _ _ _ T R) as (pairs & T' & F). exists (map (fun p => mkTag (fst p) (snd p)) pairs).
  assert (tag_pairs (map (fun p => mkTag (fst p) (snd p)) pairs) = pairs) as X.
  { unfold tag_pairs. rewrite map_map. cbn. clear. induction pairs as [|[n v] l IH]; [reflexivity|]. cbn. rewrite IH. reflexivity. }
  rewrite X. split; [|exact F]. split; [fold (tag_pairs (map (fun p => mkTag (fst p) (snd p)) pairs)); rewrite X; exact T'|].
  rewrite map_map. change (NoDup (map fst pairs)). rewrite <- (same_names _ _ F), map_map. exact ND.
Qed.

Lemma folding_scalar : forall s s', same_folding s s' -> Forall is_scalar s -> Forall is_scalar s'.
Proof.
  intros s s' (f & f' & m & m' & F & F' & B & R & -> & ->) S. apply Forall_app in S as [_ S]. apply Forall_app. split; [|eapply refolded_scalar; eassumption].
  apply ofws_white in F'. revert F'. apply Forall_impl. intros c C. unfold white in C. unfold is_scalar. lia.
Qed.

Lemma folding_sym : forall s s', same_folding s s' -> same_folding s' s.
Proof.
  intros s s' (f & f' & m & m' & F & F' & B & R & E & E'). exists f', f, m', m. split; [exact F'|]. split; [exact F|].
  split; [eapply refolded_starts; eassumption|]. split; [apply refolded_sym; exact R|]. auto.
Qed.

(** ** The text that was signed *)

Section Removed.
Variables (a f1 f2 w c : str).
Hypotheses (F1 : ofws f1) (F2 : ofws f2) (Ha : a = [] \/ exists a', a = a' ++ [59]) (Hc : c = [] \/ exists c', c = 59 :: c') (Hw : ~ In 59 w).

Lemma refolded_removed : forall s', refolded (a ++ f1 ++ lit "b" ++ f2 ++ [61] ++ w ++ c) s' ->
  exists a' f1' f2' w' c', ofws f1' /\ ofws f2' /\ (a' = [] \/ exists x, a' = x ++ [59]) /\ (c' = [] \/ exists x, c' = 59 :: x) /\ ~ In 59 w'
    /\ s' = a' ++ f1' ++ lit "b" ++ f2' ++ [61] ++ w' ++ c'
    /\ refolded (a ++ f1 ++ lit "b" ++ f2 ++ [61] ++ c) (a' ++ f1' ++ lit "b" ++ f2' ++ [61] ++ c').
Proof using F1 F2 Ha Hc Hw.
  intros s' R. rewrite app_assoc in R. change (lit "b" ++ f2 ++ [61] ++ w ++ c) with (98 :: f2 ++ 61 :: w ++ c) in R.
  destruct (refolded_at _ _ _ _ R eq_refl) as (af' & y & -> & Ra & Ry). destruct (refolded_at _ _ _ _ Ry eq_refl) as (f2' & z & -> & R2 & Rz).
  assert (exists a' f1', af' = a' ++ f1' /\ ofws f1' /\ (a' = [] \/ exists x, a' = x ++ [59])) as (a' & f1' & -> & F1' & Ha').
  { destruct Ha as [->|(x & ->)].
    - exists [], af'. split; [reflexivity|]. split; [eapply refolded_fws; eassumption|left; reflexivity].
    - rewrite <- app_assoc in Ra. destruct (refolded_at x 59 f1 _ Ra eq_refl) as (x' & f1' & -> & Rx & R1). exists (x' ++ [59]), f1'.
      split; [rewrite <- app_assoc; reflexivity|]. split; [eapply refolded_fws; eassumption|right; exists x'; reflexivity]. }
  assert (exists w' c', z = w' ++ c' /\ refolded w w' /\ refolded c c' /\ (c' = [] \/ exists x, c' = 59 :: x)) as (w' & c' & -> & Rw & Rc & Hc').
  { destruct Hc as [->|(x & ->)].
    - exists z, []. rewrite !app_nil_r in *. split; [reflexivity|]. split; [exact Rz|]. split; [constructor|left; reflexivity].
    - destruct (refolded_at _ _ _ _ Rz eq_refl) as (w' & x' & -> & Rw & Rx). exists w', (59 :: x'). split; [reflexivity|]. split; [exact Rw|].
      split; [constructor; [reflexivity|exact Rx]|right; exists x'; reflexivity]. }
  exists a', f1', f2', w', c'. split; [exact F1'|]. split; [eapply refolded_fws; eassumption|]. split; [exact Ha'|]. split; [exact Hc'|].
  split; [intros X; apply Hw; eapply refolded_in; [exact Rw|reflexivity|exact X]|].
  split; [rewrite <- !app_assoc; reflexivity|].
  rewrite (app_assoc a), (app_assoc a'). apply refolded_join; [exact Ra| |reflexivity]. constructor; [reflexivity|]. apply refolded_join; [exact R2| |reflexivity].
  constructor; [reflexivity|exact Rc].
Qed.

Lemma leading_removed : forall f f' m, ofws f -> ofws f' -> starts_black m -> f ++ m = a ++ f1 ++ lit "b" ++ f2 ++ [61] ++ w ++ c ->
  exists a' f1' o, ofws f1' /\ (a' = [] \/ exists x, a' = x ++ [59]) /\ f' ++ m = a' ++ f1' ++ lit "b" ++ f2 ++ [61] ++ w ++ c
    /\ a ++ f1 ++ lit "b" ++ f2 ++ [61] ++ c = f ++ o /\ a' ++ f1' ++ lit "b" ++ f2 ++ [61] ++ c = f' ++ o.
Proof using F1 Ha.
  intros f f' m F F' B E. destruct Ha as [->|(x & ->)].
  - destruct (white_same f f1 m (lit "b" ++ f2 ++ [61] ++ w ++ c)) as [-> ->]; auto using ofws_white; [reflexivity|].
    exists [], f', (lit "b" ++ f2 ++ [61] ++ c). split; [exact F'|]. split; [left; reflexivity|]. auto.
  - rewrite <- app_assoc in E. destruct (white_before f m x 59 (f1 ++ lit "b" ++ f2 ++ [61] ++ w ++ c) (ofws_white _ F) eq_refl E) as (y & -> & ->).
    exists (f' ++ y ++ [59]), f1, (y ++ [59] ++ f1 ++ lit "b" ++ f2 ++ [61] ++ c). split; [exact F1|]. split; [right; exists (f' ++ y); rewrite <- app_assoc; reflexivity|].
    rewrite <- !app_assoc. auto.
Qed.
End Removed.

Lemma words_leading : forall f x, ofws f -> words (as_bytes (f ++ x)) = words (as_bytes x).
Proof.
  intros f x [->|F]; [reflexivity|]. destruct (fws_white f F) as [N W]. rewrite as_bytes_app, (white_bytes f) by assumption. unfold words. rewrite words_white by assumption. reflexivity.
Qed.

Lemma original_scalar : forall a b c d e g f1 : str, Forall is_scalar (a ++ f1 ++ b ++ c ++ d ++ e ++ g) -> Forall is_scalar (a ++ f1 ++ b ++ c ++ d ++ g).
Proof. intros a b c d e g f1. rewrite !Forall_app. tauto. Qed.

Theorem folding_original : forall s s' tags tags' v, tags_of s tags -> tags_of s' tags' -> get "b" tags = Some v -> Forall is_scalar s -> same_folding s s' ->
  words (as_bytes (make_original_dkim_sig s)) = words (as_bytes (make_original_dkim_sig s')).
Proof.
  intros s s' tags tags' v T T' G Sc H. pose proof H as (f & f' & m & m' & F & F' & B & R & Es & Es').
  pose proof T as [Tt ND]. pose proof T' as [Tt' ND'].
  assert (NoDup (map fst (tag_pairs tags'))) as ND2 by (unfold tag_pairs; rewrite map_map; exact ND').
  assert (NoDup (map fst (tag_pairs tags))) as ND1 by (unfold tag_pairs; rewrite map_map; exact ND).
  destruct (tag_list_b s (tag_pairs tags) v Tt ND1) as (a & f1 & f2 & f3 & f4 & c & Oa & F1 & F2 & F3 & F4 & Nv & Hc & E1).
  { apply tag_get_In in G; [|exact ND]. unfold tag_pairs. apply in_map_iff. exists (mkTag (lit "b") v). auto. }
  assert (~ In 59 (f3 ++ v ++ f4)) as Nw.
  { rewrite !in_app_iff. intros [X|[X|X]]; try (eapply ofws_no_semi in X; [exact X|assumption]). tauto. }
  replace (f3 ++ v ++ f4 ++ c) with ((f3 ++ v ++ f4) ++ c) in E1 by (rewrite <- !app_assoc; reflexivity).
  assert (a = [] \/ exists a', a = a' ++ [59]) as Ha.
  { clear - Oa. induction Oa as [|s n v a H N O IH]; [left; reflexivity|right]. destruct IH as [->|(a' & ->)].
    - exists s. reflexivity.
    - exists (s ++ [59] ++ a'). rewrite <- !app_assoc. reflexivity. }
  rewrite E1 at 1. rewrite original_at_b by assumption.
  assert (refolded (f ++ m) (f ++ m')) as R0 by (apply refolded_join; [apply refolded_refl_fws; exact F|exact R|exact B]).
  rewrite <- Es, E1 in R0. destruct (refolded_removed _ _ _ _ _ F1 F2 Ha Hc Nw _ R0) as (a' & f1' & f2' & w' & c' & F1' & F2' & Ha' & Hc' & Nw' & E2 & R2).
  destruct (leading_removed _ _ _ _ _ F1' Ha' f f' m' F F' (refolded_starts _ _ R B) E2) as (a2 & f12 & o & F12 & Ha2 & E3 & E4 & E5).
  destruct (before_b s' _ Tt' ND2 a2 f12 f2' (w' ++ c') F12 F2' Ha2 ltac:(rewrite Es'; exact E3)) as [_ O2].
  rewrite Es', E3, original_at_b by assumption. rewrite E5, (words_leading f' o), <- (words_leading f o), <- E4 by assumption.
  apply refolded_words; [exact R2|]. rewrite E1 in Sc. eapply original_scalar. exact Sc.
Qed.

(** ** Results *)

Section WithEnv.
Variable E : Env.

Theorem folding_read : forall value s sig s', idna_keeps (env_idna E) -> signature_read E value s (Ok sig) -> same_folding s s' ->
  exists ext, signature_read E (as_bytes s') s' (Ok (with_ext_tags ext sig)) /\ Forall2 same_tag (s_ext_tags sig) ext
    /\ words (as_bytes (make_original_dkim_sig s)) = words (as_bytes (make_original_dkim_sig s')).
Proof.
  intros value s sig s' K R H. apply read_iff in R as (Sc & _ & tags & T & S). destruct (folding_tags_of _ _ _ T H) as (tags' & T' & F).
  exists (ext_tags known_sig_tags tags'). split.
  - apply read_iff. split; [eapply folding_scalar; eassumption|]. split; [reflexivity|]. exists tags'. split; [exact T'|]. eapply signature_same; eassumption.
  - split.
    + assert (s_ext_tags sig = ext_tags known_sig_tags tags) as -> by (unfold signature_of in S; tauto). apply ext_same. exact F.
    + destruct (signature_has_b _ _ _ _ S) as (v & G). eapply folding_original; eassumption.
Qed.

(** checks do not involve uninterpreted tags *)
Lemma checks_ext : forall headers config now sig ext, signature_checks E headers config now (with_ext_tags ext sig) = signature_checks E headers config now sig.
Proof. reflexivity. Qed.
Lemma key_checks_ext : forall headers config sig ext name s k, key_checks E headers config (with_ext_tags ext sig) name s k = key_checks E headers config sig name s k.
Proof. reflexivity. Qed.

Section Similar.
Variables (config : Config) (headers headers' : list HeaderField) (sig : DkimSig) (ext : list (str * str)) (name name' s s' : str).
Hypothesis occ : unsigned_occurrence headers config sig <-> unsigned_occurrence headers' config sig.
Hypothesis digest : signed_digest E headers sig name s = signed_digest E headers' sig name' s'.

Lemma record_folded : forall txt k e, record_outcome E headers config sig name s txt k e ->
  record_outcome E headers' config (with_ext_tags ext sig) name' s' txt k e.
Proof using digest.
  intros txt k e H. destruct H as [H|t e H1 H2|t r e H1 H2 H3].
  - apply ro_not_text; assumption.
  - eapply ro_format; eassumption.
  - eapply ro_record; try eassumption. rewrite key_checks_ext. revert H3. apply first_of_iff. unfold key_checks. rewrite digest.
    repeat match goal with |- Forall2 _ (_ :: _) _ => apply Forall2_cons; [split; [cbn [fst]; apply iff_refl|reflexivity]|] end. constructor.
Qed.

Lemma records_folded : forall txts k e, records_outcome E headers config sig name s txts k e ->
  records_outcome E headers' config (with_ext_tags ext sig) name' s' txts k e.
Proof using digest.
  induction 1.
  - apply rs_success. apply record_folded. assumption.
  - apply rs_last. apply record_folded. assumption.
  - eapply rs_more; [assumption|apply record_folded; eassumption|assumption].
Qed.
End Similar.

Lemma verdict_folded : forall answer headers headers' config now body body' i i' name name' value value' r s s' sig ext,
  signature_read E value s (Ok sig) -> signature_read E value' s' (Ok (with_ext_tags ext sig)) ->
  (unsigned_occurrence headers config sig <-> unsigned_occurrence headers' config sig) ->
  signed_digest E headers sig name s = signed_digest E headers' sig name' s' ->
  body_status E config sig body = body_status E config sig body' ->
  verdict E answer headers config now body i name value r ->
  verdict E answer headers' config now body' i' name' value' (mkVResult (vr_status r) i' (Some (with_ext_tags ext sig)) (vr_key_record r)).
Proof.
  intros answer headers headers' config now body body' i i' name name' value value' r s s' sig ext R R' O D B V.
  assert (forall s0 sg, signature_read E value s0 (Ok sg) -> s0 = s /\ sg = sig) as X.
  { intros s0 sg R0. destruct (signature_read_det _ _ _ _ _ _ R0 R) as [-> Y]. injection Y. auto. }
  assert (forall s0 sg, in_progress E headers config now value s0 sg -> s0 = s /\ sg = sig /\ in_progress E headers' config now value' s' (with_ext_tags ext sig)) as P.
  { intros s0 sg [P1 P2]. destruct (X _ _ P1) as [-> ->]. split; [reflexivity|]. split; [reflexivity|]. split; [exact R'|]. rewrite checks_ext. eapply checks_same; eassumption. }
  destruct V as [s0 e0 R0|s0 sg e0 R0 F0|s0 sg p k e0 Pr L A Le|s0 sg p Pr L A|s0 sg p txts k e0 Pr L A Rc|s0 sg p txts k Pr L A Rc]; cbn.
  - destruct (signature_read_det _ _ _ _ _ _ R0 R) as [_ Y]. discriminate Y.
  - destruct (X _ _ R0) as [-> ->]. eapply vd_check; [eassumption|]. rewrite checks_ext. eapply checks_same; eassumption.
  - destruct (P _ _ Pr) as (-> & -> & P'). eapply vd_lookup; eassumption.
  - destruct (P _ _ Pr) as (-> & -> & P'). eapply vd_no_key; eassumption.
  - destruct (P _ _ Pr) as (-> & -> & P'). eapply vd_key; try eassumption. eapply records_folded; eassumption.
  - destruct (P _ _ Pr) as (-> & -> & P'). rewrite B. change (body_status E config sig body') with (body_status E config (with_ext_tags ext sig) body').
    eapply vd_body; try eassumption. eapply records_folded; eassumption.
Qed.

Theorem folding_results : forall w w' config headers headers' chunks chunks' answer rs rs' i i' name name' value r r' s sig s',
  idna_keeps (env_idna E) ->
  evaluation E w headers config chunks answer rs -> result_for config headers rs i name value r ->
  evaluation E w' headers' config chunks' answer rs' -> result_for config headers' rs' i' name' (as_bytes s') r' ->
  w_clock w i = w_clock w' i' ->
  signature_read E value s (Ok sig) -> same_folding s s' -> lower name = lower name' ->
  c_header (s_canonicalization sig) = Relaxed ->
  same_fields Relaxed (s_signed_headers sig ++ cf_headers_forbidden_to_be_unsigned config) headers headers' ->
  same_body (c_body (s_canonicalization sig)) (concat chunks) (concat chunks') ->
  vr_signature r = Some sig /\ exists ext, Forall2 same_tag (s_ext_tags sig) ext
    /\ r' = mkVResult (vr_status r) i' (Some (with_ext_tags ext sig)) (vr_key_record r).
Proof.
  intros w w' config headers headers' chunks chunks' answer rs rs' i i' name name' value r r' s sig s' K Ev R Ev' R' T SR Fo N C F B.
  destruct (evaluation_verdict _ _ _ _ _ _ _ _ _ _ _ Ev R) as (V & _). destruct (evaluation_verdict _ _ _ _ _ _ _ _ _ _ _ Ev' R') as (V' & _).
  split; [eapply verdict_signature; eassumption|]. destruct (folding_read _ _ _ _ K SR Fo) as (ext & SR' & X & W). exists ext. split; [exact X|].
  rewrite <- T in V'. apply (verdict_det _ _ _ _ _ _ _ _ _ _ _ V'). eapply verdict_folded; [exact SR|exact SR'| | | |exact V].
  - apply (unsigned_same Relaxed). intros n Hn. apply F. apply in_or_app. auto.
  - unfold signed_digest. f_equal. rewrite C. f_equal.
    + apply hash_input_same. intros n Hn. apply F. apply in_or_app. auto.
    + apply same_field_canonical. split; [exact N|exact W].
  - apply body_status_same. exact B.
Qed.

End WithEnv.
