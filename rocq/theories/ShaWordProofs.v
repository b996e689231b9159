(** Proofs about words of bits, and the constants of SHA. *)

From Coq Require Import List NArith.
From Verif Require Import Base SpecRsa SpecSha Concrete Lib.
Import ListNotations.
Open Scope N_scope.

Lemma word_of_length : forall w n, length (word_of w n) = w.
Proof. induction w; intros n; cbn [word_of length]; [reflexivity|]. now rewrite IHw. Qed.

Lemma word_of_ext : forall w a b, (forall i, i < N.of_nat w -> N.testbit a i = N.testbit b i) -> word_of w a = word_of w b.
Proof.
  induction w; intros a b H; cbn [word_of]; [reflexivity|]. f_equal; [apply H; lia|]. apply IHw. intros i Hi. apply H. lia.
Qed.

Lemma word_of_app : forall a b n, word_of (a + b) n = word_of a (N.shiftr n (N.of_nat b)) ++ word_of b n.
Proof.
  induction a; intros b n; cbn [word_of app]; [reflexivity|].
  change (S a + b)%nat with (S (a + b)). cbn [word_of]. rewrite IHa. f_equal. rewrite N.shiftr_spec by lia. f_equal. lia.
Qed.

Lemma word_of_mod : forall w n, word_of w (n mod 2 ^ N.of_nat w) = word_of w n.
Proof. intros w n. apply word_of_ext. intros i Hi. now rewrite N.mod_pow2_bits_low. Qed.

Lemma number_step : forall x a, fold_left (fun n b => 2 * n + (if b : bool then 1 else 0)) x a = a * 2 ^ N.of_nat (length x) + number x.
Proof.
  unfold number. induction x as [|b x IH]; intros a; cbn [fold_left length]; [rewrite N.pow_0_r; lia|].
  rewrite IH, (IH (2 * 0 + _)), Nat2N.inj_succ, N.pow_succ_r'. lia.
Qed.

Lemma number_cons : forall b x, number (b :: x) = (if b then 2 ^ N.of_nat (length x) else 0) + number x.
Proof.
  intros b x. unfold number at 1. cbn [fold_left]. rewrite number_step. destruct b; lia.
Qed.

Lemma number_bound : forall x, number x < 2 ^ N.of_nat (length x).
Proof.
  induction x as [|b x IH]; [reflexivity|]. rewrite number_cons. cbn [length]. rewrite Nat2N.inj_succ, N.pow_succ_r'. destruct b; lia.
Qed.

Lemma number_word : forall w n, number (word_of w n) = n mod 2 ^ N.of_nat w.
Proof.
  induction w; intros n; cbn [word_of]; [now rewrite N.pow_0_r, N.mod_1_r|].
  rewrite number_cons, word_of_length, IHw, Nat2N.inj_succ, N.pow_succ_r'.
  pose proof (N.pow_nonzero 2 (N.of_nat w)) as Z.
  rewrite (N.mul_comm 2), N.mod_mul_r by lia. rewrite <- N.testbit_spec' with (a := n) (n := N.of_nat w).
  rewrite N.testbit_eqb. 
  rewrite <- N.shiftr_div_pow2.
  destruct (N.eqb_spec (N.shiftr n (N.of_nat w) mod 2) 1) as [X|X]; cbn [N.b2n]; lia.
Qed.

Lemma word_number : forall x, word_of (length x) (number x) = x.
Proof.
  induction x as [|b x IH]; cbn [length word_of]; [reflexivity|]. rewrite number_cons. pose proof (number_bound x) as B. f_equal.
  - destruct b.
    + rewrite <- (N.mul_1_l (2 ^ _)), N.add_comm, N.testbit_eqb. rewrite N.div_add by (apply N.pow_nonzero; lia). rewrite N.div_small by exact B. reflexivity.
    + rewrite N.testbit_eqb, N.add_0_l, N.div_small by exact B. reflexivity.
  - transitivity (word_of (length x) (number x)); [|exact IH]. rewrite <- word_of_mod, <- (word_of_mod _ (number x)). f_equal. destruct b; [|reflexivity].
    rewrite N.add_comm. rewrite <- (N.mul_1_l (2 ^ _)) at 1. apply N.mod_add. apply N.pow_nonzero. lia.
Qed.

(** ** Operations *)

Lemma zip_word : forall (f : bool -> bool -> bool) g, (forall a b i, N.testbit (g a b) i = f (N.testbit a i) (N.testbit b i)) ->
  forall w a b, zip f (word_of w a) (word_of w b) = word_of w (g a b).
Proof.
  intros f g H. unfold zip. induction w; intros a b; cbn [word_of combine map fst snd]; [reflexivity|]. now rewrite H, IHw.
Qed.
Lemma wxor_word : forall w a b, wxor (word_of w a) (word_of w b) = word_of w (N.lxor a b).
Proof. apply zip_word. exact N.lxor_spec. Qed.
Lemma wand_word : forall w a b, wand (word_of w a) (word_of w b) = word_of w (N.land a b).
Proof. apply zip_word. exact N.land_spec. Qed.
Lemma wnot_word : forall w a, wnot (word_of w a) = word_of w (flip_bits (N.of_nat w) a).
Proof.
  intros w a. assert (X : forall v, (v <= w)%nat -> wnot (word_of v a) = word_of v (flip_bits (N.of_nat w) a)); [|apply X; lia].
  unfold wnot. induction v; intros Hv; cbn [word_of map]; [reflexivity|]. f_equal; [|apply IHv; lia].
  unfold flip_bits. rewrite N.lxor_spec, N.ones_spec_low by lia. now destruct (N.testbit a _).
Qed.

Lemma firstn_word : forall w n a, (n <= w)%nat -> firstn (w - n) (word_of w a) = word_of (w - n) (N.shiftr a (N.of_nat n)).
Proof.
  intros w n a H. replace w with ((w - n) + n)%nat at 2 by lia. rewrite word_of_app, firstn_app, word_of_length.
  replace (w - n - (w - n))%nat with O by lia. cbn [firstn]. rewrite app_nil_r. apply firstn_all2. rewrite word_of_length. lia.
Qed.
Lemma skipn_word : forall w n a, (n <= w)%nat -> skipn (w - n) (word_of w a) = word_of n a.
Proof.
  intros w n a H. replace w with ((w - n) + n)%nat at 2 by lia. rewrite word_of_app, skipn_app, word_of_length.
  replace (w - n - (w - n))%nat with O by lia. cbn [skipn]. rewrite skipn_all2; [reflexivity|]. rewrite word_of_length. lia.
Qed.

Lemma high_bit : forall w a i, a < 2 ^ w -> w <= i -> N.testbit a i = false.
Proof.
  intros w a i H Hi. destruct (N.eq_0_gt_0_cases a) as [->|P]; [apply N.bits_0|]. apply N.bits_above_log2.
  apply N.lt_le_trans with w; [|exact Hi]. now apply N.log2_lt_pow2.
Qed.

Lemma wrotr_word : forall w n a, (n <= w)%nat -> a < 2 ^ N.of_nat w -> wrotr n (word_of w a) = word_of w (rotr (N.of_nat w) (N.of_nat n) a).
Proof.
  intros w n a H A. unfold wrotr. rewrite word_of_length, firstn_word, skipn_word by exact H.
  replace (word_of w (rotr (N.of_nat w) (N.of_nat n) a)) with (word_of (n + (w - n)) (rotr (N.of_nat w) (N.of_nat n) a)) by (f_equal; lia).
  rewrite word_of_app. f_equal; apply word_of_ext; intros i Hi; unfold rotr.
  - rewrite N.shiftr_spec, N.lor_spec, N.shiftr_spec, N.land_spec by lia. rewrite (high_bit (N.of_nat w) a (_ + _ + _)) by (exact A || lia). cbn [orb].
    rewrite N.shiftl_spec_high, N.ones_spec_low by lia. rewrite Bool.andb_true_r. f_equal. lia.
  - rewrite N.lor_spec, N.land_spec, N.shiftl_spec_low by lia. cbn [andb]. now rewrite Bool.orb_false_r.
Qed.

Lemma wrotl_word : forall w n a, (n <= w)%nat -> a < 2 ^ N.of_nat w -> wrotl n (word_of w a) = word_of w (rotl (N.of_nat w) (N.of_nat n) a).
Proof.
  intros w n a H A. unfold rotl. replace (N.of_nat w - N.of_nat n) with (N.of_nat (w - n)) by lia.
  rewrite <- wrotr_word by (lia || exact A). unfold wrotr, wrotl. rewrite word_of_length. now replace (w - (w - n))%nat with n by lia.
Qed.

Lemma wshr_word : forall w n a, (n <= w)%nat -> a < 2 ^ N.of_nat w -> wshr n (word_of w a) = word_of w (N.shiftr a (N.of_nat n)).
Proof.
  intros w n a H A. unfold wshr. rewrite word_of_length, firstn_word by exact H.
  replace (word_of w (N.shiftr a (N.of_nat n))) with (word_of (n + (w - n)) (N.shiftr a (N.of_nat n))) by (f_equal; lia).
  rewrite word_of_app. f_equal. 
  assert (Z : forall m, repeat false m = word_of m 0).
  { induction m; cbn [repeat word_of]; [reflexivity|]. now rewrite N.bits_0, IHm. }
  rewrite Z. apply word_of_ext. intros i Hi. rewrite N.bits_0, !N.shiftr_spec by lia. symmetry. apply high_bit with (N.of_nat w); [exact A|lia].
Qed.

Lemma zeros_word : forall m, repeat false m = word_of m 0.
Proof. induction m; cbn [repeat word_of]; [reflexivity|]. now rewrite N.bits_0, IHm. Qed.

(** bounds *)
Definition small_word (w : nat) (x : N) : Prop := x < 2 ^ N.of_nat w.

Lemma ones_mod : forall w x, N.land x (N.ones w) = x mod 2 ^ w.
Proof. intros. apply N.land_ones. Qed.
Lemma pow2_pos : forall n, 2 ^ n <> 0.
Proof. intros. apply N.pow_nonzero. lia. Qed.
Lemma add_small : forall w a b, small_word w (add (N.of_nat w) a b).
Proof. intros. unfold small_word, add. rewrite ones_mod. apply N.mod_lt. apply pow2_pos. Qed.

Lemma bits_small : forall w x, (forall i, N.of_nat w <= i -> N.testbit x i = false) -> small_word w x.
Proof.
  intros w x H. unfold small_word. assert (X : x mod 2 ^ N.of_nat w = x).
  { apply N.bits_inj. intros i. destruct (N.ltb_spec i (N.of_nat w)) as [L|L]; [now apply N.mod_pow2_bits_low|].
    rewrite N.mod_pow2_bits_high by exact L. symmetry. now apply H. }
  rewrite <- X. apply N.mod_lt. apply pow2_pos.
Qed.
Lemma lxor_small : forall w a b, small_word w a -> small_word w b -> small_word w (N.lxor a b).
Proof. intros w a b A B. apply bits_small. intros i Hi. rewrite N.lxor_spec. now rewrite (high_bit _ _ _ A Hi), (high_bit _ _ _ B Hi). Qed.
Lemma rotr_small : forall w n a, small_word w a -> small_word w (rotr (N.of_nat w) n a).
Proof.
  intros w n a A. apply bits_small. intros i Hi. unfold rotr. rewrite N.lor_spec, N.land_spec, N.shiftr_spec, N.ones_spec_high by lia.
  rewrite Bool.andb_false_r, Bool.orb_false_r. apply high_bit with (N.of_nat w); [exact A|lia].
Qed.

(** sums *)
Lemma sum2 : forall w a b, word_of w (number (word_of w a) + (number (word_of w b) + 0)) = word_of w (add (N.of_nat w) a b).
Proof.
  intros w a b. rewrite !number_word, N.add_0_r. unfold add. rewrite ones_mod, <- word_of_mod. f_equal.
  symmetry. apply N.add_mod. apply pow2_pos.
Qed.
Definition sum_of (l : list N) : N := fold_right N.add 0 l.
Lemma sum_word : forall w l, sum w (map (word_of w) l) = word_of w (sum_of l).
Proof.
  intros w l. unfold sum. rewrite <- word_of_mod, <- (word_of_mod w (sum_of l)). f_equal.
  induction l as [|x l IH]; [reflexivity|]. cbn [map fold_right sum_of]. fold (sum_of l).
  rewrite N.add_mod, IH, number_word, N.mod_mod by apply pow2_pos. rewrite <- N.add_mod by apply pow2_pos. reflexivity.
Qed.
Lemma add_word : forall w a b, word_of w (add (N.of_nat w) a b) = word_of w (a + b).
Proof. intros. unfold add. rewrite ones_mod. apply word_of_mod. Qed.

Lemma add2 : forall w a b, add w a b = sum_of [a; b] mod 2 ^ w.
Proof. intros. unfold add, sum_of. cbn [fold_right]. now rewrite ones_mod, N.add_0_r. Qed.
Lemma add4 : forall w a b c d, add w (add w a b) (add w c d) = sum_of [a; b; c; d] mod 2 ^ w.
Proof.
  intros w a b c d. unfold add, sum_of. cbn [fold_right]. rewrite !ones_mod, <- N.add_mod by apply pow2_pos. f_equal. lia.
Qed.
Lemma add5 : forall w a b c d e, add w (add w a b) (add w c (add w d e)) = sum_of [a; b; c; d; e] mod 2 ^ w.
Proof.
  intros w a b c d e. unfold add, sum_of. cbn [fold_right]. rewrite !ones_mod, <- N.add_mod, N.add_assoc, N.add_mod_idemp_r by apply pow2_pos. f_equal. lia.
Qed.
