(** General lemmas and tactics.  Proofs only. *)

From Coq Require Export ZArith Lia ZifyBool ZifyNat ZifyN Permutation.
From Verif Require Export Base.

Ltac Zify.zify_post_hook ::= Z.div_mod_to_equations.

Ltac inv H := inversion H; subst; clear H.

(** Case analysis on the innermost [match]/[if] scrutinee. *)
Ltac dmatch_in t :=
  match t with
  | context [match ?x with _ => _ end] =>
      lazymatch x with
      | context [match _ with _ => _ end] => fail
      | _ => destruct x eqn:?
      end
  end.
Ltac dmatch := match goal with |- ?g => dmatch_in g end.
Ltac dmatch_hyp H := let t := type of H in dmatch_in t.

Lemma bind_val : forall A B (m : outcome A) (f : A -> outcome B) b,
  bind m f = Val b <-> exists a, m = Val a /\ f a = Val b.
Proof.
  intros A B [a|] f b; simpl; split; intros H.
  - eauto.
  - destruct H as (x & H1 & H2). inv H1. auto.
  - discriminate.
  - destruct H as (x & H1 & _). discriminate.
Qed.

Lemma bind_assoc : forall A B C (m : outcome A) (f : A -> outcome B) (g : B -> outcome C),
  bind (bind m f) g = bind m (fun a => bind (f a) g).
Proof. intros A B C [a|] f g; reflexivity. Qed.

Ltac ubind H :=
  apply bind_val in H;
  let x := fresh "x" in let E := fresh "E" in
  destruct H as (x & E & H).

Lemma leqb_eq : forall a b, leqb a b = true <-> a = b.
Proof.
  induction a as [|x a IH]; destruct b as [|y b]; simpl; split; intros H; try easy.
  - apply andb_true_iff in H. destruct H as [H1 H2].
    apply N.eqb_eq in H1. apply IH in H2. congruence.
  - inv H. rewrite N.eqb_refl. simpl. apply IH. reflexivity.
Qed.

Lemma leqb_refl : forall a, leqb a a = true.
Proof. intros. apply leqb_eq. reflexivity. Qed.

Lemma leqb_neq : forall a b, leqb a b = false <-> a <> b.
Proof.
  intros a b. destruct (leqb a b) eqn:E.
  - apply leqb_eq in E. split; intros; congruence.
  - split; auto. intros _ H. subst. rewrite leqb_refl in E. discriminate.
Qed.

Lemma leqb_sym : forall a b, leqb a b = leqb b a.
Proof.
  intros. destruct (leqb a b) eqn:E.
  - apply leqb_eq in E. subst. symmetry. apply leqb_refl.
  - apply leqb_neq in E. symmetry. apply leqb_neq. congruence.
Qed.

Lemma is_nil_true : forall A (l : list A), is_nil l = true <-> l = [].
Proof. destruct l; simpl; split; intros; congruence. Qed.

Lemma is_nil_false : forall A (l : list A), is_nil l = false <-> l <> [].
Proof. destruct l; simpl; split; intros; congruence. Qed.

Lemma mem_str_In : forall x l, mem_str x l = true <-> In x l.
Proof.
  intros. unfold mem_str. rewrite existsb_exists. split.
  - intros (y & H1 & H2). apply leqb_eq in H2. subst. auto.
  - intros H. exists x. split; auto. apply leqb_refl.
Qed.

Lemma mem_str_not_In : forall x l, mem_str x l = false <-> ~ In x l.
Proof.
  intros. rewrite <- mem_str_In. destruct (mem_str x l); split; intros; congruence.
Qed.

Lemma eqic_eq : forall a b,
  eq_ignore_ascii_case a b = true <-> to_ascii_lowercase a = to_ascii_lowercase b.
Proof. intros. apply leqb_eq. Qed.

Lemma eqic_refl : forall a, eq_ignore_ascii_case a a = true.
Proof. intros. apply eqic_eq. reflexivity. Qed.

Lemma eqic_sym : forall a b, eq_ignore_ascii_case a b = eq_ignore_ascii_case b a.
Proof. intros. apply leqb_sym. Qed.

Lemma eqic_trans : forall a b c,
  eq_ignore_ascii_case a b = true -> eq_ignore_ascii_case b c = true ->
  eq_ignore_ascii_case a c = true.
Proof. intros a b c. rewrite !eqic_eq. congruence. Qed.

Lemma ascii_lower_idem : forall c, ascii_lower (ascii_lower c) = ascii_lower c.
Proof.
  intros c. unfold ascii_lower, is_ascii_upper, in_range.
  destruct ((65 <=? c) && (c <=? 90)) eqn:E; [|rewrite E; reflexivity].
  replace ((65 <=? c + 32) && (c + 32 <=? 90)) with false by lia. reflexivity.
Qed.

Lemma to_ascii_lowercase_idem : forall s,
  to_ascii_lowercase (to_ascii_lowercase s) = to_ascii_lowercase s.
Proof.
  intros. unfold to_ascii_lowercase. rewrite map_map. apply map_ext. apply ascii_lower_idem.
Qed.

Lemma forallb_app_iff : forall A (p : A -> bool) l1 l2,
  forallb p (l1 ++ l2) = forallb p l1 && forallb p l2.
Proof. intros. apply forallb_app. Qed.

Lemma existsb_false : forall A (p : A -> bool) l,
  existsb p l = false <-> forall x, In x l -> p x = false.
Proof.
  induction l as [|a l IH]; simpl; split; intros; try easy.
  - apply orb_false_iff in H. destruct H, H0; subst; auto. apply IH; auto.
  - apply orb_false_iff. split; auto. apply IH; auto.
Qed.

(** [trim_start] *)
Lemma trim_start_spec : forall p s, exists a,
  s = a ++ trim_start p s /\ forallb p a = true
  /\ (trim_start p s = [] \/ exists c r, trim_start p s = c :: r /\ p c = false).
Proof.
  induction s as [|c s IH]; simpl.
  - exists []. auto.
  - destruct (p c) eqn:E.
    + destruct IH as (a & H1 & H2 & H3). exists (c :: a). simpl.
      rewrite E. split; [congruence|auto].
    + exists []. simpl. split; auto. split; auto. right. eauto.
Qed.

Lemma trim_start_nop : forall p c s, p c = false -> trim_start p (c :: s) = c :: s.
Proof. intros. simpl. rewrite H. reflexivity. Qed.

Lemma trim_start_app_all : forall p a s, forallb p a = true -> trim_start p (a ++ s) = trim_start p s.
Proof.
  induction a; simpl; intros; auto. apply andb_true_iff in H. destruct H. rewrite H. auto.
Qed.

Lemma trim_start_all : forall p a, forallb p a = true -> trim_start p a = [].
Proof. intros. rewrite <- (app_nil_r a). rewrite trim_start_app_all; auto. Qed.

Lemma forallb_rev : forall A (p : A -> bool) l, forallb p (rev l) = forallb p l.
Proof.
  intros. destruct (forallb p l) eqn:E.
  - rewrite forallb_forall in *. intros. apply E. apply in_rev. auto.
  - destruct (forallb p (rev l)) eqn:E2; auto.
    rewrite forallb_forall in E2. assert (forallb p l = true); [|congruence].
    apply forallb_forall. intros. apply E2. apply in_rev in H. auto.
Qed.

Lemma trim_end_app_all : forall p a s, forallb p a = true -> trim_end p (s ++ a) = trim_end p s.
Proof.
  intros. unfold trim_end. rewrite rev_app_distr.
  rewrite trim_start_app_all; auto. rewrite forallb_rev. auto.
Qed.

Lemma trim_end_nop : forall p c s, p c = false -> trim_end p (s ++ [c]) = s ++ [c].
Proof.
  intros. unfold trim_end. rewrite rev_app_distr. simpl. rewrite H. simpl.
  rewrite rev_involutive. auto.
Qed.

Lemma trim_end_spec : forall p s, exists a,
  s = trim_end p s ++ a /\ forallb p a = true
  /\ (trim_end p s = [] \/ exists c r, trim_end p s = r ++ [c] /\ p c = false).
Proof.
  intros. unfold trim_end. destruct (trim_start_spec p (rev s)) as (a & H1 & H2 & H3).
  exists (rev a). split; [|split].
  - rewrite <- rev_app_distr. rewrite <- H1. rewrite rev_involutive. auto.
  - rewrite forallb_rev. auto.
  - destruct H3 as [H3|(c & r & H3 & H4)].
    + left. rewrite H3. auto.
    + right. exists c, (rev r). rewrite H3. simpl. auto.
Qed.

Lemma snoc_cases : forall A (l : list A), l = [] \/ exists l' x, l = l' ++ [x].
Proof.
  intros. destruct (rev l) eqn:E.
  - left. rewrite <- (rev_involutive l). rewrite E. auto.
  - right. exists (rev l0), a. rewrite <- (rev_involutive l). rewrite E. auto.
Qed.

(** [split_on] *)
Fixpoint join (c : N) (ps : list (list N)) : list N :=
  match ps with
  | [] => []
  | [p] => p
  | p :: ps' => p ++ [c] ++ join c ps'
  end.

Lemma join_cons : forall c p ps, ps <> [] -> join c (p :: ps) = p ++ [c] ++ join c ps.
Proof. intros. destruct ps; [congruence|reflexivity]. Qed.

Lemma split_on_nonempty : forall c s, split_on c s <> [].
Proof. induction s; simpl; try easy. destruct (a =? c); try easy. destruct (split_on c s); easy. Qed.

Lemma join_split_on : forall c s, join c (split_on c s) = s.
Proof.
  induction s as [|x s IH]; simpl; auto.
  destruct (x =? c) eqn:E.
  - rewrite join_cons by apply split_on_nonempty. rewrite IH. simpl. apply N.eqb_eq in E. congruence.
  - pose proof (split_on_nonempty c s). destruct (split_on c s) as [|p ps]; [congruence|].
    rewrite <- IH. destruct ps; reflexivity.
Qed.

Lemma split_on_no_sep : forall c s p, In p (split_on c s) -> ~ In c p.
Proof.
  induction s as [|x s IH]; simpl; intros p H.
  - destruct H; [subst; auto|easy].
  - destruct (x =? c) eqn:E.
    + destruct H; [subst; auto|auto].
    + pose proof (split_on_nonempty c s). destruct (split_on c s) as [|q ps]; [congruence|].
      destruct H as [H|H].
      * subst. intros [H|H]; [subst; rewrite N.eqb_refl in E; discriminate|].
        apply (IH q); simpl; auto.
      * apply IH. simpl. auto.
Qed.

Lemma split_on_app_no_sep : forall c a s, ~ In c a ->
  split_on c (a ++ s) =
    match split_on c s with p :: ps => (a ++ p) :: ps | [] => [] end.
Proof.
  induction a as [|x a IH]; simpl; intros s H.
  - pose proof (split_on_nonempty c s). destruct (split_on c s); congruence.
  - destruct (x =? c) eqn:E; [apply N.eqb_eq in E; subst; exfalso; auto|].
    rewrite IH by auto. pose proof (split_on_nonempty c s). destruct (split_on c s); congruence.
Qed.

Lemma split_on_app_sep : forall c a s, ~ In c a -> split_on c (a ++ c :: s) = a :: split_on c s.
Proof.
  intros. rewrite split_on_app_no_sep by auto. simpl. rewrite N.eqb_refl. rewrite app_nil_r. auto.
Qed.

Lemma split_on_none : forall c a, ~ In c a -> split_on c a = [a].
Proof.
  intros. rewrite <- (app_nil_r a) at 1. rewrite split_on_app_no_sep by auto. simpl.
  rewrite app_nil_r. auto.
Qed.

Lemma split_on_join : forall c ps, ps <> [] -> (forall p, In p ps -> ~ In c p) ->
  split_on c (join c ps) = ps.
Proof.
  induction ps as [|p ps IH]; intros H1 H2; [congruence|].
  destruct ps as [|q ps].
  - simpl. apply split_on_none. apply H2. simpl. auto.
  - rewrite join_cons by easy. simpl app. rewrite split_on_app_sep by (apply H2; simpl; auto).
    f_equal. apply IH; [easy|]. intros. apply H2. simpl in *. auto.
Qed.

(** [split_once], [rsplit_once] *)
Lemma split_once_spec : forall c s,
  match split_once c s with
  | Some (a, b) => s = a ++ c :: b /\ ~ In c a
  | None => ~ In c s
  end.
Proof.
  induction s as [|x s IH]; simpl; auto.
  destruct (x =? c) eqn:E.
  - apply N.eqb_eq in E. subst. auto.
  - apply N.eqb_neq in E. destruct (split_once c s) as [[a b]|].
    + destruct IH as [IH1 IH2]. simpl. split; [congruence|]. intros [H|H]; auto.
    + intros [H|H]; auto.
Qed.

Lemma split_once_app : forall c a b, ~ In c a -> split_once c (a ++ c :: b) = Some (a, b).
Proof.
  induction a as [|x a IH]; simpl; intros.
  - rewrite N.eqb_refl. auto.
  - destruct (x =? c) eqn:E; [apply N.eqb_eq in E; subst; exfalso; auto|].
    rewrite IH by auto. auto.
Qed.

Lemma split_once_none : forall c a, ~ In c a -> split_once c a = None.
Proof.
  induction a as [|x a IH]; simpl; intros; auto.
  destruct (x =? c) eqn:E; [apply N.eqb_eq in E; subst; exfalso; auto|].
  rewrite IH by auto. auto.
Qed.

Lemma rsplit_once_app : forall c a b, ~ In c b -> rsplit_once c (a ++ c :: b) = Some (a, b).
Proof.
  intros. unfold rsplit_once. rewrite rev_app_distr. simpl. rewrite <- app_assoc. simpl.
  rewrite split_once_app. { rewrite !rev_involutive. auto. }
  intros H1. apply H. apply in_rev in H1. auto.
Qed.

Lemma rsplit_once_spec : forall c s,
  match rsplit_once c s with
  | Some (a, b) => s = a ++ c :: b /\ ~ In c b
  | None => ~ In c s
  end.
Proof.
  intros. unfold rsplit_once. pose proof (split_once_spec c (rev s)) as H.
  destruct (split_once c (rev s)) as [[a b]|].
  - destruct H as [H1 H2]. split.
    + rewrite <- (rev_involutive s). rewrite H1. rewrite rev_app_distr. simpl.
      rewrite <- app_assoc. auto.
    + intros H3. apply H2. apply in_rev. auto.
  - intros H3. apply H. apply in_rev in H3. auto.
Qed.

Lemma contains_char_In : forall c s, contains_char c s = true <-> In c s.
Proof.
  intros. unfold contains_char. rewrite existsb_exists. split.
  - intros (x & H1 & H2). apply N.eqb_eq in H2. subst. auto.
  - intros. exists c. rewrite N.eqb_refl. auto.
Qed.

Lemma contains_char_false : forall c s, contains_char c s = false <-> ~ In c s.
Proof.
  intros. rewrite <- contains_char_In. destruct (contains_char c s); split; congruence.
Qed.
