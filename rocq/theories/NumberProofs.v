(** Elementary number theory: Fermat's little theorem, and what RSA rests on. *)

From Coq Require Import List Permutation Lia ZArith NArith.
From Verif Require Import SpecRsa.
Import ListNotations.
Open Scope N_scope.

Lemma prime_gcd : forall p a, prime p -> ~ N.divide p a -> N.gcd p a = 1.
Proof.
  intros p a (H1 & H2) H. destruct (H2 (N.gcd p a) (N.gcd_divide_l p a)) as [X|X]; [exact X|].
  destruct H. rewrite <- X. apply N.gcd_divide_r.
Qed.

Lemma prime_mul : forall p a b, prime p -> N.divide p (a * b) -> N.divide p a \/ N.divide p b.
Proof.
  intros p a b H D. destruct (N.eq_dec (a mod p) 0) as [X|X].
  - left. apply N.mod_divide; [destruct H; lia|exact X].
  - right. apply N.gauss with a; [exact D|]. apply prime_gcd; [exact H|].
    intros Y. apply N.mod_divide in Y; [contradiction|destruct H; lia].
Qed.

Lemma mod_eq_divide : forall p a b, p <> 0 -> a <= b -> a mod p = b mod p -> N.divide p (b - a).
Proof.
  intros p a b Hp L H. exists (b / p - a / p).
  pose proof (N.div_mod a p Hp). pose proof (N.div_mod b p Hp).
  pose proof (N.div_le_mono a b p Hp L). rewrite N.mul_sub_distr_r. nia.
Qed.

Lemma divide_mod_eq : forall p a b, p <> 0 -> a <= b -> N.divide p (b - a) -> a mod p = b mod p.
Proof.
  intros p a b Hp L (k & H). replace b with (a + k * p) by lia. rewrite N.mod_add; [reflexivity|exact Hp].
Qed.

Lemma cancel_le : forall p a b c, prime p -> ~ N.divide p c -> a <= b ->
  (a * c) mod p = (b * c) mod p -> a mod p = b mod p.
Proof.
  intros p a b c H D L X. assert (p <> 0) by (destruct H; lia). apply divide_mod_eq; [assumption..|].
  apply mod_eq_divide in X; [|assumption|nia]. rewrite <- N.mul_sub_distr_r in X.
  destruct (prime_mul _ _ _ H X); [assumption|contradiction].
Qed.

Lemma cancel : forall p a b c, prime p -> ~ N.divide p c ->
  (a * c) mod p = (b * c) mod p -> a mod p = b mod p.
Proof.
  intros p a b c H D X. destruct (N.le_ge_cases a b).
  - eapply cancel_le; eassumption.
  - symmetry. eapply cancel_le; try eassumption. symmetry. exact X.
Qed.

Lemma product_perm : forall l l', Permutation l l' -> product l = product l'.
Proof. unfold product. induction 1; cbn [fold_right]; [reflexivity|rewrite IHPermutation; reflexivity|lia|congruence]. Qed.

Lemma product_mod : forall p a l, p <> 0 ->
  product (map (fun i => (a * i) mod p) l) mod p = (a ^ N.of_nat (length l) * product l) mod p.
Proof.
  intros p a l Hp. induction l as [|i l IH]; [reflexivity|].
  cbn [map product fold_right length]. fold (product l). fold (product (map (fun i => (a * i) mod p) l)).
  rewrite N.mul_mod, IH, N.mod_mod, <- N.mul_mod by assumption. rewrite Nat2N.inj_succ, N.pow_succ_r'.
  f_equal. lia.
Qed.

Lemma product_prime : forall p l, prime p -> N.divide p (product l) -> exists i, In i l /\ N.divide p i.
Proof.
  intros p l H. induction l as [|i l IH]; intros D.
  - cbn in D. apply N.divide_1_r in D. destruct H; lia.
  - cbn in D. apply prime_mul in D; [|exact H]. destruct D as [D|D]; [exists i; cbn; auto|].
    destruct (IH D) as (j & X & Y). exists j. cbn; auto.
Qed.

Definition below (p : N) : list N := map N.of_nat (seq 1 (N.to_nat (p - 1))).

Lemma in_below : forall p i, In i (below p) <-> 0 < i < p.
Proof.
  intros p i. unfold below. rewrite in_map_iff. split.
  - intros (j & <- & X). apply in_seq in X. lia.
  - intros X. exists (N.to_nat i). split; [lia|]. apply in_seq. lia.
Qed.

Lemma below_nodup : forall p, NoDup (below p).
Proof.
  intros p. apply FinFun.Injective_map_NoDup; [|apply seq_NoDup]. intros x y H. lia.
Qed.

Lemma below_not : forall p i, prime p -> In i (below p) -> ~ N.divide p i.
Proof. intros p i H X D. apply in_below in X. apply N.divide_pos_le in D; lia. Qed.

Theorem fermat : forall p a, prime p -> ~ N.divide p a -> a ^ (p - 1) mod p = 1.
Proof.
  intros p a H D. assert (Hp : 1 < p) by (destruct H; assumption). assert (p <> 0) by lia.
  set (f := fun i => (a * i) mod p).
  assert (P : Permutation (map f (below p)) (below p)).
  { apply NoDup_Permutation_bis.
    - assert (I : forall i j, In i (below p) -> In j (below p) -> f i = f j -> i = j).
      { intros i j Hi Hj X. unfold f in X. rewrite (N.mul_comm a i), (N.mul_comm a j) in X.
        apply cancel in X; [|assumption..]. apply in_below in Hi, Hj. rewrite !N.mod_small in X by lia. exact X. }
      pose proof (below_nodup p) as Nd. revert I Nd. generalize (below p). clear. induction l as [|x l IH]; intros I Nd; [constructor|].
      inversion Nd; subst. cbn. constructor.
      + rewrite in_map_iff. intros (y & X & Y). apply I in X; cbn; auto. subst. contradiction.
      + apply IH; [|assumption]. intros. apply I; cbn; auto.
    - rewrite map_length. lia.
    - intros x X. apply in_map_iff in X. destruct X as (i & <- & Hi). apply in_below. unfold f.
      pose proof (N.mod_lt (a * i) p H0) as Lt. pose proof (below_not p i H Hi) as N1.
      assert ((a * i) mod p <> 0); [|revert Lt H1; generalize ((a * i) mod p); lia]. intros Z. apply N.mod_divide in Z; [|assumption].
      destruct (prime_mul _ _ _ H Z); contradiction. }
  apply product_perm in P. pose proof (product_mod p a (below p) H0) as M. fold f in M. rewrite P in M.
  rewrite <- (N.mul_1_l (product (below p))) in M at 1. apply cancel in M; [|assumption|].
  - unfold below in M. rewrite map_length, seq_length, N2Nat.id in M. rewrite <- M. apply N.mod_small. exact Hp.
  - intros X. apply product_prime in X; [|assumption]. destruct X as (i & Hi & X). exact (below_not p i H Hi X).
Qed.

Lemma pow_mod : forall m a k, m <> 0 -> (a ^ k) mod m = ((a mod m) ^ k) mod m.
Proof.
  intros m a k Hm. induction k as [|k IH] using N.peano_ind; [reflexivity|].
  rewrite !N.pow_succ_r', N.mul_mod, IH by assumption.
  rewrite N.mul_mod_idemp_r by assumption. reflexivity.
Qed.

(** exponents that are 1 modulo p - 1 *)
Lemma back_prime : forall p x t, prime p -> x ^ (1 + t * (p - 1)) mod p = x mod p.
Proof.
  intros p x t H. assert (p <> 0) by (destruct H; lia).
  destruct (N.eq_dec (x mod p) 0) as [Z|Z].
  - rewrite pow_mod, Z by assumption. rewrite N.pow_0_l by (generalize (t * (p - 1)); lia). apply N.mod_0_l. assumption.
  - rewrite N.pow_add_r, N.pow_1_r, N.mul_comm. rewrite (N.mul_comm t), N.pow_mul_r.
    rewrite N.mul_mod, pow_mod, fermat; [|assumption| |assumption..].
    + rewrite N.pow_1_l, <- N.mul_mod, N.mul_1_l by assumption. reflexivity.
    + intros D. apply N.mod_divide in D; [contradiction|assumption].
Qed.

Lemma coprime_divide : forall p q a, N.gcd p q = 1 -> N.divide p a -> N.divide q a -> N.divide (p * q) a.
Proof.
  intros p q a G (k & ->) D. rewrite N.mul_comm in D. apply N.gauss in D; [|rewrite N.gcd_comm; exact G].
  destruct D as (j & ->). exists j. lia.
Qed.

Lemma distinct_primes : forall p q, prime p -> prime q -> p <> q -> N.gcd p q = 1.
Proof.
  intros p q H1 H2 H. apply prime_gcd; [exact H1|]. intros D. destruct H2 as (_ & H2). destruct (H2 p D); [destruct H1; lia|contradiction].
Qed.

Lemma both_mod : forall p q a b, p <> 0 -> q <> 0 -> N.gcd p q = 1 -> a mod p = b mod p -> a mod q = b mod q ->
  a mod (p * q) = b mod (p * q).
Proof.
  intros p q a b Hp Hq G H1 H2. assert (p * q <> 0) by nia. destruct (N.le_ge_cases a b) as [L|L].
  - apply divide_mod_eq; [assumption..|]. apply coprime_divide; [exact G| |]; apply mod_eq_divide; assumption.
  - symmetry. apply divide_mod_eq; [assumption..|]. apply coprime_divide; [exact G| |]; apply mod_eq_divide; auto.
Qed.

Lemma product_divide : forall p ps, prime p -> Forall prime ps -> N.divide p (product ps) -> In p ps.
Proof.
  intros p ps H F D. apply product_prime in D; [|exact H]. destruct D as (i & Hi & D). rewrite Forall_forall in F.
  destruct (F i Hi) as (_ & X). destruct (X p D) as [Y|Y]; [destruct H; lia|]. rewrite Y. exact Hi.
Qed.

Lemma product_pos : forall ps, Forall prime ps -> product ps <> 0.
Proof. intros ps F. induction F as [|p ps H F IH]; cbn [product fold_right]; [lia|]. fold (product ps). destruct H; nia. Qed.

Lemma all_mod : forall ps a b, Forall prime ps -> NoDup ps -> Forall (fun p => a mod p = b mod p) ps ->
  a mod product ps = b mod product ps.
Proof.
  induction ps as [|p ps IH]; intros a b P Nd F; cbn [product fold_right]; [rewrite !N.mod_1_r; reflexivity|]. fold (product ps).
  inversion P as [|? ? P1 P2]; inversion Nd as [|? ? N1 N2]; inversion F as [|? ? F1 F2]; subst.
  apply both_mod; [destruct P1; lia|apply product_pos; exact P2| |exact F1|apply IH; assumption].
  apply prime_gcd; [exact P1|]. intros D. apply product_divide in D; [contradiction|assumption..].
Qed.

Theorem back : forall n e d x, rsa_pair n e d -> (x ^ d mod n) ^ e mod n = x mod n.
Proof.
  intros n e d x (ps & -> & Nd & Pos & F).
  assert (P : Forall prime ps) by (eapply Forall_impl; [|exact F]; intros p (X & _); exact X).
  pose proof (product_pos ps P) as N0. rewrite <- pow_mod, <- N.pow_mul_r by exact N0. apply all_mod; [exact P|exact Nd|].
  eapply Forall_impl; [|exact F]. intros p (X & t & Ht). replace (d * e) with (1 + t * (p - 1)) by lia. apply back_prime. exact X.
Qed.
