(** Proofs: the order of the base point of Ed25519 is prime, so that multiples of the base
    point are the same only when the numbers are the same modulo the order. *)

From Coq Require Import List Lia ZArith NArith.
From Verif Require Import Base SpecRsa Concrete Lib NumberProofs PrimeProofs PocklingtonProofs P25519Proofs FieldProofs EdwardsProofs Ed25519Proofs EdOrderProofs EdSignProofs.
Import ListNotations.
Open Scope N_scope.

Lemma order_1 : prime 2551.
Proof. apply (small_prime 2551 51); vm_compute; reflexivity. Qed.
Lemma order_2 : prime 1224481.
Proof. apply (certified _ _ 921659 0 order_1). vm_compute. reflexivity. Qed.
Lemma order_3 : prime 1257559732178653.
Proof. apply (certified _ _ 1252739704402215 28 order_2). vm_compute. reflexivity. Qed.
Lemma order_4 : prime 4434155615661930479.
Proof. apply (certified _ _ 415787812636281767 0 order_3). vm_compute. reflexivity. Qed.
Lemma order_5 : prime 172054593956031949258510691.
Proof. apply (certified _ _ 81982237619807054769897707 0 order_4). vm_compute. reflexivity. Qed.
Lemma order_6 : prime 19757330305831588566944191468367130476339.
Proof. apply (certified _ _ 9148758478138211201771971577098600188172 0 order_5). vm_compute. reflexivity. Qed.
Lemma order_7 : prime 276602624281642239937218680557139826668747.
Proof. apply (certified _ _ 16384 0 order_6). vm_compute. reflexivity. Qed.
Theorem order_prime : prime order.
Proof. apply (certified _ _ 2975531125133123119648879457563281269120703404158613135195788908093573672641 0 order_7). vm_compute. reflexivity. Qed.

(** ** Multiples of a point of prime order *)

Section Order.
Variables (L : N) (P : Fp * Fp).
Hypothesis HL : prime L.
Hypothesis on_P : on_ P.
Hypothesis L_none : manyN L P = none.
Hypothesis P_none : P <> none.

Lemma L_nonzero : L <> 0.
Proof. destruct HL as [H _]. clear - H. lia. Qed.

Lemma manyN_none : forall k, manyN k none = none.
Proof. intros [|k]; [reflexivity|apply many_none]. Qed.

Lemma none_divides : forall t, manyN t P = none -> N.divide L t.
Proof.
  intros t H. destruct (N.eq_dec (t mod L) 0) as [Z|Z]; [apply N.mod_divide; [exact L_nonzero|exact Z]|exfalso].
  assert (~ N.divide L t) as D. { intros D. apply Z. apply N.mod_divide; [exact L_nonzero|exact D]. }
  pose proof (fermat L t HL D) as F. apply P_none.
  assert (t ^ (L - 1) = t ^ (L - 2) * t) as E.
  { replace (L - 1) with (N.succ (L - 2)) by (destruct HL as [X _]; clear - X; lia). rewrite N.pow_succ_r'. apply N.mul_comm. }
  assert (manyN (t ^ (L - 1)) P = none) as X. { rewrite E, manyN_mul by exact on_P. rewrite H. apply manyN_none. }
  rewrite <- (manyN_mod L _ P on_P L_nonzero L_none), F in X. exact X.
Qed.

Lemma same_le : forall j t, manyN j P = manyN (j + t) P -> N.divide L t.
Proof.
  intros j t H. apply none_divides. set (u := L - j mod L).
  assert (manyN (u + j) P = none) as U.
  { pose proof (N.mod_lt j L L_nonzero) as Lt.
    assert (N.divide L (u + j)) as (c & C).
    { exists (1 + j / L). pose proof (N.div_mod j L L_nonzero) as D. unfold u. clear - Lt D. rewrite N.mul_add_distr_r. set (x := j mod L) in *. set (y := j / L) in *.
      rewrite (N.mul_comm y). lia. }
    rewrite C, manyN_mul, L_none by exact on_P. apply manyN_none. }
  assert (manyN (u + (j + t)) P = none) as X. { rewrite manyN_add, <- H, <- manyN_add by exact on_P. exact U. }
  rewrite N.add_assoc, manyN_add, U, none_sum in X by exact on_P. exact X.
Qed.

Theorem same_multiple : forall j k, manyN j P = manyN k P <-> j mod L = k mod L.
Proof.
  intros j k. split.
  - intros H. destruct (N.le_ge_cases j k) as [X|X].
    + apply divide_mod_eq; [exact L_nonzero|exact X|]. apply (same_le j). rewrite H. f_equal. clear - X. lia.
    + symmetry. apply divide_mod_eq; [exact L_nonzero|exact X|]. apply (same_le k). rewrite <- H. f_equal. clear - X. lia.
  - intros H. rewrite <- (manyN_mod L j P on_P L_nonzero L_none), H. apply manyN_mod; [exact on_P|exact L_nonzero|exact L_none].
Qed.

End Order.

Lemma base_some : base_point <> none.
Proof.
  intros H. unfold base_point, none, origin in H. apply (f_equal (fun a => V (snd a))) in H. cbn [snd] in H. rewrite V_M, <- one_V in H by apply base_lt.
  vm_compute in H. discriminate H.
Qed.

Theorem base_multiples : forall j k, manyN j base_point = manyN k base_point <-> j mod order = k mod order.
Proof. exact (same_multiple order base_point order_prime on_base base_order base_some). Qed.
