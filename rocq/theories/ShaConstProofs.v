(** Proofs about the constants of SHA-256 and SHA-512: roots of the first primes. *)

From Coq Require Import List NArith.
From Verif Require Import Base SpecRsa SpecSha Concrete Lib ShaWordProofs.
Import ListNotations.
Open Scope N_scope.

(** ** The first eighty primes *)

Definition primes80 : list N :=
  [2; 3; 5; 7; 11; 13; 17; 19; 23; 29; 31; 37; 41; 43; 47; 53; 59; 61; 67; 71; 73; 79; 83; 89; 97; 101; 103; 107; 109; 113; 127; 131; 137; 139; 149; 151; 157; 163; 167; 173; 179; 181; 191; 193; 197; 199; 211; 223; 227; 229; 233; 239; 241; 251; 257; 263; 269; 271; 277; 281; 283; 293; 307; 311; 313; 317; 331; 337; 347; 349; 353; 359; 367; 373; 379; 383; 389; 397; 401; 409].

Definition upto (n : nat) : list N := map N.of_nat (seq 0 n).
Lemma upto_in : forall n x, x < N.of_nat n -> In x (upto n).
Proof.
  intros n x H. unfold upto. apply in_map_iff. exists (N.to_nat x). split; [lia|]. apply in_seq. lia.
Qed.

(** no divisor among 2 ... 20 other than itself *)
Definition undivided (q : N) : bool :=
  (2 <=? q) && forallb (fun d => (d <? 2) || (d =? q) || negb (q mod d =? 0)) (upto 21).

Lemma undivided_prime : forall q, q < 441 -> (undivided q = true <-> prime q).
Proof.
  intros q Q. unfold undivided, prime. rewrite Bool.andb_true_iff, N.leb_le, forallb_forall. split.
  - intros [Q2 H]. split; [lia|]. intros d [e D].
    assert (X : forall a b, q = a * b -> a < 21 -> a = 1 \/ a = q).
    { intros a b E A. specialize (H a (upto_in 21 a A)). rewrite !Bool.orb_true_iff, N.ltb_lt, N.eqb_eq, Bool.negb_true_iff, N.eqb_neq in H.
      destruct H as [[H|H]|H]; [destruct (N.eq_dec a 0) as [->|]; [lia|left; lia]|now right|].
      exfalso. apply H. rewrite E, N.mul_comm. apply N.mod_mul. destruct (N.eq_dec a 0) as [->|]; lia. }
    destruct (N.ltb_spec d 21) as [L|L]; [apply X with e; lia|].
    assert (E : e < 21) by nia. destruct (X e d D E) as [->|E1]; [right; lia|]. left. subst e. nia.
  - intros [Q1 H]. split; [lia|]. intros d _. rewrite !Bool.orb_true_iff, N.ltb_lt, N.eqb_eq, Bool.negb_true_iff, N.eqb_neq.
    destruct (N.ltb_spec d 2) as [L|L]; [now left; left|]. destruct (N.eq_dec d q) as [E|E]; [now left; right|]. right. intros M.
    apply N.mod_divide in M; [|lia]. destruct (H d M); lia.
Qed.

Definition primes_checked : bool :=
  forallb (fun q => Bool.eqb (undivided q) (existsb (N.eqb q) primes80)) (upto 410).
Lemma primes_listed : primes_checked = true.
Proof. vm_compute. reflexivity. Qed.

Lemma prime_in : forall q, q < 410 -> (prime q <-> In q primes80).
Proof.
  intros q Q. rewrite <- undivided_prime by lia.
  pose proof primes_listed as C. unfold primes_checked in C. rewrite forallb_forall in C. specialize (C q (upto_in 410 q Q)).
  apply Bool.eqb_prop in C. rewrite C, existsb_exists. split.
  - intros (x & X & E). apply N.eqb_eq in E. now subst.
  - intros X. exists q. split; [exact X|apply N.eqb_refl].
Qed.

Definition increasing (l : list N) : bool :=
  forallb (fun p => fst p <? snd p) (combine l (tl l)).
Lemma primes_increasing : increasing primes80 = true.
Proof. vm_compute. reflexivity. Qed.
Lemma increasing_cons : forall a l, increasing (a :: l) = true -> increasing l = true /\ Forall (fun x => a < x) l.
Proof.
  intros a l. revert a. induction l as [|b l IH]; intros a H; [split; [reflexivity|constructor]|].
  unfold increasing in H. cbn [combine tl forallb fst snd] in H. apply andb_prop in H. destruct H as [L H].
  apply N.ltb_lt in L. specialize (IH b). change (increasing (b :: l) = true) in H. split; [exact H|].
  constructor; [exact L|]. apply IH in H. destruct H as [_ H]. eapply Forall_impl; [|exact H]. cbn. intros; lia.
Qed.
Lemma increasing_split : forall l t p, increasing l = true -> nth_error l t = Some p ->
  length (firstn t l) = t /\ NoDup (firstn t l) /\ forall q, In q (firstn t l) <-> In q l /\ q < p.
Proof.
  induction l as [|a l IH]; intros t p H E; [destruct t; discriminate|]. destruct (increasing_cons _ _ H) as [H1 H2].
  destruct t as [|t]; cbn [nth_error firstn] in *.
  - injection E as ->. split; [reflexivity|]. split; [constructor|]. intros q. split; [intros []|]. intros [[->|Q] L]; [lia|].
    rewrite Forall_forall in H2. apply H2 in Q. lia.
  - destruct (IH t p H1 E) as (I1 & I2 & I3). split; [cbn [length]; now rewrite I1|].
    assert (P : a < p). { rewrite Forall_forall in H2. apply H2. apply nth_error_In with t. exact E. }
    rewrite Forall_forall in H2. split.
    + constructor; [|exact I2]. intros X. apply I3 in X. destruct X as [X _]. apply H2 in X. lia.
    + intros q. cbn [In]. rewrite I3. split; [intros [->|[Q L]]; auto|]. intros [[->|Q] L]; auto.
Qed.

Lemma primes_below : Forall (fun q => q < 410) primes80.
Proof. apply Forall_forall. intros x X. apply N.ltb_lt. assert (C : forallb (fun q => q <? 410) primes80 = true) by (vm_compute; reflexivity). rewrite forallb_forall in C. now apply C. Qed.

Lemma listed_nth : forall t p, nth_error primes80 t = Some p -> nth_prime t p.
Proof.
  intros t p E. pose proof (nth_error_In _ _ E) as I. pose proof primes_below as B. rewrite Forall_forall in B. specialize (B _ I). cbn beta in B.
  split; [now apply prime_in|]. exists (firstn t primes80).
  destruct (increasing_split primes80 t p primes_increasing E) as (L & D & H). split; [exact D|]. split; [exact L|]. intros q. rewrite H.
  split; intros [Q L']; (split; [|exact L']); apply prime_in; try exact Q; lia.
Qed.

Lemma nth_prime_unique : forall t p q, nth_prime t p -> nth_prime t q -> p = q.
Proof.
  assert (X : forall t p q, nth_prime t p -> nth_prime t q -> p < q -> False).
  { intros t p q [P (ps & D & L & H)] [Q (qs & D' & L' & H')] I.
    assert (C : (length (p :: ps) <= length qs)%nat); [|cbn [length] in C; lia].
    apply NoDup_incl_length.
    - constructor; [|exact D]. intros Y. apply H in Y. lia.
    - intros x [->|Y]; apply H'; [now split|]. apply H in Y. destruct Y. split; [assumption|lia]. }
  intros t p q P Q. destruct (N.lt_trichotomy p q) as [L|[L|L]]; [exfalso; eauto|exact L|exfalso; eauto].
Qed.

(** ** Roots *)

Lemma root_unique : forall r w p x y, r <> 0 -> root_bits r w p x -> root_bits r w p y -> x = y.
Proof.
  intros r w p x y R [X (i & Hi)] [Y (j & Hj)]. cbn zeta in Hi, Hj.
  pose proof (number_bound x) as BX. pose proof (number_bound y) as BY. rewrite X in BX. rewrite Y in BY.
  set (a := i * 2 ^ N.of_nat w + number x) in *. set (b := j * 2 ^ N.of_nat w + number y) in *.
  assert (A : a < b + 1) by (apply (N.pow_lt_mono_l_iff a (b + 1) r R); lia).
  assert (B : b < a + 1) by (apply (N.pow_lt_mono_l_iff b (a + 1) r R); lia).
  assert (E : a = b) by lia. unfold a, b in E.
  assert (F : number x = number y).
  { rewrite <- (N.mod_small (number x) (2 ^ N.of_nat w)), <- (N.mod_small (number y) (2 ^ N.of_nat w)) by assumption.
    rewrite <- (N.mod_add (number x) i), <- (N.mod_add (number y) j) by apply pow2_pos. f_equal. lia. }
  rewrite <- (word_number x), <- (word_number y), X, Y, F. reflexivity.
Qed.

(** a list of constants, checked with the integer parts of the roots *)
Definition root_check (r w : N) (p k : N) : bool :=
  (k <? 2 ^ w)
  && existsb (fun i => let y := i * 2 ^ w + k in (y ^ r <=? p * 2 ^ (r * w)) && (p * 2 ^ (r * w) <? (y + 1) ^ r)) (upto 8).
Definition roots_check (r w : N) (n : nat) (ks : list N) : bool :=
  Nat.eqb (length ks) n && forallb (fun p => root_check r w (fst p) (snd p)) (combine primes80 ks).

Lemma roots_ok : roots_check 3 32 64 K256 = true /\ roots_check 2 32 8 H256 = true
  /\ roots_check 3 64 80 K512 = true /\ roots_check 2 64 8 H512 = true.
Proof. repeat split; vm_compute; reflexivity. Qed.

Lemma combine_nth_error : forall A B (l : list A) (m : list B) t x y, nth_error l t = Some x -> nth_error m t = Some y -> nth_error (combine l m) t = Some (x, y).
Proof.
  induction l as [|a l IH]; intros [|b m] [|t] x y X Y; cbn [nth_error combine] in *; try discriminate; [congruence|]. now apply IH.
Qed.

Lemma roots_word : forall r w n ks t p x, r <> 0 -> (n <= 80)%nat -> roots_check r (N.of_nat w) n ks = true -> (t < n)%nat -> nth_prime t p ->
  (root_bits r w p x <-> x = word_of w (nth t ks 0)).
Proof.
  intros r w n ks t p x R N80 C T P. unfold roots_check in C. apply andb_prop in C. destruct C as [L C]. apply Nat.eqb_eq in L. rewrite forallb_forall in C.
  destruct (nth_error primes80 t) as [p'|] eqn:E.
  2: { apply nth_error_None in E. change (length primes80) with 80%nat in E. lia. }
  pose proof (listed_nth _ _ E) as P'. rewrite (nth_prime_unique _ _ _ P P'). clear p P.
  assert (K : nth_error ks t = Some (nth t ks 0)) by (apply nth_error_nth'; lia).
  specialize (C _ (nth_error_In _ _ (combine_nth_error _ _ _ _ _ _ _ E K))). cbn [fst snd] in C.
  unfold root_check in C. apply andb_prop in C. destruct C as [S C]. apply N.ltb_lt in S. apply existsb_exists in C. destruct C as (i & _ & C).
  cbn zeta in C. apply andb_prop in C. destruct C as [C1 C2]. apply N.leb_le in C1. apply N.ltb_lt in C2.
  assert (X : root_bits r w p' (word_of w (nth t ks 0))).
  { split; [apply word_of_length|]. exists i. cbn zeta. rewrite number_word, (N.mod_small _ _ S). now split. }
  split; [intros Y; exact (root_unique r w p' _ _ R Y X)|intros ->; exact X].
Qed.
