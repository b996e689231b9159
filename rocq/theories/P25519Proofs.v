(** Proofs: 2^255 - 19 is prime; a square root of -1 modulo it. *)

From Coq Require Import List Lia ZArith NArith.
From Verif Require Import SpecRsa Concrete Lib NumberProofs PrimeProofs PocklingtonProofs.
Import ListNotations.
Open Scope N_scope.

Lemma prime_1 : prime 991.
Proof. apply (small_prime 991 32); vm_compute; reflexivity. Qed.
Lemma prime_2 : prime 8574133.
Proof. apply (certified 991 _ 3435729 2 prime_1). vm_compute. reflexivity. Qed.
Lemma prime_3 : prime 1919519569386763.
Proof. apply (certified _ _ 1059928654987441 5 prime_2). vm_compute. reflexivity. Qed.
Lemma prime_4 : prime 75445702479781427272750846543864801.
Proof. apply (certified _ _ 56747016255153332959347766392083459 143 prime_3). vm_compute. reflexivity. Qed.

Definition large_factor : N := 74058212732561358302231226437062788676166966415465897661863160754340907.

Lemma prime_5 : prime large_factor.
Proof.
  apply (certified _ _ 69490809710348678725736597923071784769591275419387514694139338586948360 3 prime_4). vm_compute. reflexivity.
Qed.

(** a square root of -1 *)
Definition unit_i : N := 19681161376707505956807079304988542015446066515923890162744021073123829784752.


Lemma p_nonzero : p <> 0.
Proof. vm_compute. discriminate. Qed.

(** 2^255 is 19 *)
Definition fold (x : N) : N := N.land x (N.ones 255) + 19 * N.shiftr x 255.

Lemma fold_mod : forall x, fold x mod p = x mod p.
Proof.
  intros x. unfold fold. rewrite N.land_ones, N.shiftr_div_pow2. rewrite <- (N.mod_add _ (x / 2 ^ 255)) by exact p_nonzero. f_equal.
  pose proof (N.div_mod x (2 ^ 255)) as D. replace p with (2 ^ 255 - 19) by reflexivity. set (m := 2 ^ 255) in *.
  assert (19 < m) by (vm_compute; reflexivity). rewrite N.mul_sub_distr_l. set (k := x / m) in *. set (y := x mod m) in *.
  assert (k * 19 <= k * m) by (apply N.mul_le_mono_l; lia). specialize (D ltac:(lia)). lia.
Qed.

Definition quarter : positive := Eval vm_compute in Z.to_pos (Z.of_N ((p - 1) / 4)).

Lemma power_i : 2 ^ ((p - 1) / 4) mod p = unit_i.
Proof.
  assert ((p - 1) / 4 = Npos quarter) as -> by (vm_compute; reflexivity).
  assert (fast_pow (fun x => fold (fold x)) 2 quarter mod p = unit_i) as X by (vm_compute; reflexivity).
  rewrite (fast_pow_mod p) in X by (intros; rewrite ?fold_mod; auto using p_nonzero). exact X.
Qed.

Lemma square_i : unit_i * unit_i mod p = p - 1.
Proof. vm_compute. reflexivity. Qed.

Lemma fourth_power : forall m a k i, 1 < m -> a ^ k mod m = i -> i * i mod m = m - 1 -> a ^ (k * 2 * 2) mod m = 1.
Proof.
  intros m a k i Hm H S. rewrite N.pow_mul_r, pow_mod, N.pow_mul_r, (pow_mod m (a ^ k)), H, (N.pow_2_r i), S by lia.
  rewrite N.pow_2_r. replace ((m - 1) * (m - 1)) with (1 + (m - 2) * m).
  - rewrite N.mod_add by lia. apply N.mod_small. exact Hm.
  - assert (exists t, m = t + 2) as (t & ->) by (exists (m - 2); clear - Hm; lia). clear. replace (t + 2 - 1) with (t + 1) by lia. replace (t + 2 - 2) with t by lia. lia.
Qed.

Lemma power_p : 2 ^ (p - 1) mod p = 1.
Proof.
  assert (p - 1 = (p - 1) / 4 * 2 * 2) as -> by (vm_compute; reflexivity).
  apply (fourth_power p 2 _ unit_i); [vm_compute; reflexivity|exact power_i|exact square_i].
Qed.

Definition small_power : N := Eval vm_compute in fast_pow (fun x => fold (fold x)) 2 781764 mod p.

Lemma small_power_spec : small_power = 2 ^ 781764 mod p.
Proof.
  assert (fast_pow (fun x => fold (fold x)) 2 781764 mod p = small_power) as X by (vm_compute; reflexivity).
  rewrite (fast_pow_mod p) in X by (intros; rewrite ?fold_mod; auto using p_nonzero). symmetry. exact X.
Qed.

Theorem p_prime : prime p.
Proof.
  apply (pocklington large_factor p small_power 0 prime_5); [vm_compute; reflexivity|vm_compute; discriminate| |vm_compute; reflexivity|vm_compute; reflexivity|reflexivity].
  rewrite small_power_spec, <- pow_mod, <- N.pow_mul_r by exact p_nonzero.
  replace (781764 * large_factor) with (p - 1) by (vm_compute; reflexivity). exact power_p.
Qed.
