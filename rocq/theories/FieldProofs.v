(** Proofs: the numbers below a prime are a field. *)

From Coq Require Import List Lia ZArith NArith Ring Field Eqdep_dec Bool.
From Verif Require Import SpecRsa Lib NumberProofs.
Import ListNotations.
Open Scope N_scope.

Section Field.
Variables (n : N) (P : prime n).

Definition Fld : Type := {x : N | (x <? n) = true}.

Lemma below : forall x, (x mod n <? n) = true.
Proof. intros x. apply N.ltb_lt. apply N.mod_lt. destruct P. lia. Qed.

Definition mk (x : N) : Fld := exist _ (x mod n) (below x).
Definition val (a : Fld) : N := proj1_sig a.

Lemma val_lt : forall a, val a < n.
Proof. intros (x & H). apply N.ltb_lt. exact H. Qed.

Lemma val_inj : forall a b, val a = val b -> a = b.
Proof. intros (x & H) (y & K) E. cbn in E. subst y. f_equal. apply UIP_dec. apply bool_dec. Qed.

Lemma val_mk : forall x, val (mk x) = x mod n.
Proof. reflexivity. Qed.

Lemma val_mk_small : forall x, x < n -> val (mk x) = x.
Proof. intros x H. rewrite val_mk. apply N.mod_small. exact H. Qed.

Lemma mk_val : forall a, mk (val a) = a.
Proof. intros a. apply val_inj. rewrite val_mk. apply N.mod_small. apply val_lt. Qed.

Lemma mk_eq : forall x y, mk x = mk y <-> x mod n = y mod n.
Proof. intros x y. split; intros H; [apply (f_equal val) in H; exact H|apply val_inj; exact H]. Qed.

Definition f0 : Fld := mk 0.
Definition f1 : Fld := mk 1.
Definition fadd (a b : Fld) : Fld := mk (val a + val b).
Definition fmul (a b : Fld) : Fld := mk (val a * val b).
Definition fopp (a : Fld) : Fld := mk (n - val a).
Definition fsub (a b : Fld) : Fld := fadd a (fopp b).
Definition finv (a : Fld) : Fld := mk (val a ^ (n - 2)).
Definition fdiv (a b : Fld) : Fld := fmul a (finv b).

Lemma n_big : 1 < n.
Proof. apply P. Qed.

Lemma n_nonzero : n <> 0.
Proof. pose proof n_big. lia. Qed.

Lemma mk_add : forall x y, fadd (mk x) (mk y) = mk (x + y).
Proof. intros x y. apply mk_eq. rewrite !val_mk, <- N.add_mod by exact n_nonzero. reflexivity. Qed.

Lemma mk_mul : forall x y, fmul (mk x) (mk y) = mk (x * y).
Proof. intros x y. apply mk_eq. rewrite !val_mk, <- N.mul_mod by exact n_nonzero. reflexivity. Qed.

Lemma mk_n : mk n = f0.
Proof. apply mk_eq. rewrite N.mod_same, N.mod_0_l by exact n_nonzero. reflexivity. Qed.

Lemma mk_mod : forall x, mk (x mod n) = mk x.
Proof. intros x. apply mk_eq. apply N.mod_mod. exact n_nonzero. Qed.

Lemma mk_pow : forall x k, mk (x ^ k) = mk (val (mk x) ^ k).
Proof. intros x k. apply mk_eq. rewrite val_mk, <- pow_mod by exact n_nonzero. reflexivity. Qed.

Lemma opp_def : forall a, fadd a (fopp a) = f0.
Proof.
  intros a. rewrite <- (mk_val a) at 1. unfold fopp. rewrite mk_add. pose proof (val_lt a).
  replace (val a + (n - val a)) with n by lia. exact mk_n.
Qed.

Lemma val_zero : forall a, val a = 0 <-> a = f0.
Proof.
  intros a. split; intros H; [apply val_inj; rewrite H; symmetry; apply val_mk_small; pose proof n_big; lia|].
  rewrite H. apply val_mk_small. pose proof n_big. lia.
Qed.

Lemma inv_l : forall a, a <> f0 -> fmul (finv a) a = f1.
Proof.
  intros a H. rewrite <- (mk_val a) at 2. unfold finv. rewrite mk_mul. apply mk_eq. pose proof n_big as B. rewrite (N.mod_small 1) by lia.
  replace (val a ^ (n - 2) * val a) with (val a ^ (n - 1)).
  - apply fermat; [exact P|]. intros (c & D). apply H, val_zero. pose proof (val_lt a) as L. rewrite D in L |- *.
    destruct c; [reflexivity|]. nia.
  - replace (n - 1) with (N.succ (n - 2)) by lia. rewrite N.pow_succ_r'. lia.
Qed.

Lemma f_ring : ring_theory f0 f1 fadd fmul fsub fopp eq.
Proof.
  constructor; intros; repeat match goal with a : Fld |- _ => rewrite <- (mk_val a); generalize (val a); clear a; intro end;
    try reflexivity; unfold f0, f1; rewrite ?mk_mul, ?mk_add, ?mk_mul; try (f_equal; lia).
  apply opp_def.
Qed.

Lemma f1_f0 : f1 <> f0.
Proof. intros H. apply mk_eq in H. pose proof n_big. rewrite N.mod_small, N.mod_0_l in H by lia. discriminate H. Qed.

Lemma f_field : field_theory f0 f1 fadd fmul fsub fopp fdiv finv eq.
Proof. constructor; [exact f_ring|exact f1_f0|reflexivity|exact inv_l]. Qed.

Lemma f_dec : forall a b : Fld, {a = b} + {a <> b}.
Proof.
  intros a b. destruct (N.eq_dec (val a) (val b)) as [E|E]; [left; apply val_inj; exact E|right; intros ->; apply E; reflexivity].
Qed.

Add Field fld : f_field.

Lemma f_integral : forall a b, fmul a b = f0 -> a = f0 \/ b = f0.
Proof.
  intros a b H. destruct (f_dec a f0) as [E|E]; [left; exact E|right].
  assert (fmul (finv a) (fmul a b) = f0) as X by (rewrite H; ring). rewrite <- X. field. exact E.
Qed.

Lemma mk_sub : forall x y, y <= x -> mk (x - y) = fsub (mk x) (mk y).
Proof.
  intros x y H. assert (mk x = fadd (mk (x - y)) (mk y)) as -> by (rewrite mk_add; f_equal; lia). ring.
Qed.


(** powers with large exponents *)
Definition npow (a : Fld) (k : N) : Fld := mk (val a ^ k).

Lemma npow_add : forall a j k, npow a (j + k) = fmul (npow a j) (npow a k).
Proof. intros a j k. unfold npow. rewrite mk_mul, N.pow_add_r. reflexivity. Qed.

Lemma npow_mul : forall a j k, npow a (j * k) = npow (npow a j) k.
Proof. intros a j k. unfold npow. rewrite N.pow_mul_r. apply mk_pow. Qed.

Lemma npow_mul_base : forall a b k, npow (fmul a b) k = fmul (npow a k) (npow b k).
Proof. intros a b k. unfold npow at 1. unfold fmul at 1. rewrite <- mk_pow, N.pow_mul_l, <- mk_mul. reflexivity. Qed.

Lemma npow_0 : forall a, npow a 0 = f1.
Proof. reflexivity. Qed.

Lemma npow_1 : forall a, npow a 1 = a.
Proof. intros a. unfold npow. rewrite N.pow_1_r. apply mk_val. Qed.

Lemma npow_2 : forall a, npow a 2 = fmul a a.
Proof. intros a. replace 2 with (1 + 1) by reflexivity. rewrite npow_add, npow_1. reflexivity. Qed.

Lemma npow_zero : forall k, k <> 0 -> npow f0 k = f0.
Proof.
  intros k H. unfold npow. replace (val f0) with 0 by (symmetry; apply val_zero; reflexivity). rewrite N.pow_0_l by exact H. reflexivity.
Qed.

Lemma npow_fermat : forall a, a <> f0 -> npow a (n - 1) = f1.
Proof.
  intros a H. replace (n - 1) with (n - 2 + 1) by (pose proof n_big; lia). rewrite npow_add, npow_1. exact (inv_l a H).
Qed.

Lemma square_roots : forall a b, fmul a a = fmul b b -> a = b \/ a = fopp b.
Proof.
  intros a b H. destruct (f_integral (fsub a b) (fadd a b)) as [X|X].
  - replace (fmul (fsub a b) (fadd a b)) with (fsub (fmul a a) (fmul b b)) by ring. rewrite H. ring.
  - left. replace a with (fadd (fsub a b) b) by ring. rewrite X. ring.
  - right. replace a with (fsub (fadd a b) b) by ring. rewrite X. ring.
Qed.

(** half of the numbers: 1 and -1 *)
Lemma npow_half : forall a h, n - 1 = h * 2 -> a <> f0 -> npow a h = f1 \/ npow a h = fopp f1.
Proof.
  intros a h Hh Ha. apply square_roots. rewrite <- npow_2, <- npow_mul, <- Hh, npow_fermat by exact Ha. ring.
Qed.
End Field.
