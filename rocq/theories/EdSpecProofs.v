(** Proofs: the Ed25519 functions of Concrete.v meet the specification of RFC 8032. *)

From Coq Require Import String List Lia ZArith NArith.
From Verif Require Import Base Crypto SpecRsa SpecEd Concrete Lib NumberProofs ConcreteProofs EdwardsProofs Ed25519Proofs EdOrderProofs EdSignProofs.
Import ListNotations.
Open Scope N_scope.

Definition W (a : Fp * Fp) : N * N := (V (fst a), V (snd a)).

Lemma modulus_p : modulus = p.
Proof. reflexivity. Qed.

Lemma W_inj : forall a b, W a = W b -> a = b.
Proof.
  intros (x, y) (x', y') H. unfold W in H. cbn [fst snd] in H.
  pose proof (f_equal fst H) as H1. pose proof (f_equal snd H) as H2. cbn [fst snd] in H1, H2.
  apply V_inj in H1. apply V_inj in H2. rewrite H1, H2. reflexivity.
Qed.

Lemma equal_M : forall a b, equal a b <-> M a = M b.
Proof. intros a b. unfold equal. rewrite modulus_p. symmetry. apply M_eq. Qed.

Lemma M_0 : M 0 = z0.
Proof. rewrite zero_V. apply M_V. Qed.

Lemma fraction_d : add_ (mul_ (M 121666) dd) (M 121665) = z0.
Proof.
  rewrite <- (M_V dd), V_d, d_spec, M_mul, M_add, <- M_0. apply M_eq. vm_compute. reflexivity.
Qed.

Lemma denominator : M 121666 <> z0.
Proof. rewrite <- M_0. intros H. apply M_eq in H. vm_compute in H. discriminate H. Qed.

Definition scaled_on_p := scaled_on _ _ _ _ _ _ _ _ _ fp_field dd (M 121665) (M 121666) denominator fraction_d.
Definition scaled_sum_p := scaled_sum _ _ _ _ _ _ _ _ _ fp_field fp_dec dd ii two_spec d_nonsquare ii_spec (M 121665) (M 121666) denominator fraction_d.

(** ** Points *)

Lemma on_scaled : forall m n x y, M (n * (V y * V y) + m * (V x * V x * (V y * V y))) = M (n + n * (V x * V x))
  <-> (M n * (y * y) + M m * (x * x * (y * y)) = M n + M n * (x * x))%F.
Proof. intros. rewrite <- !M_add, <- !M_mul, !M_V. reflexivity. Qed.

Lemma curve_W : forall a, on_curve (W a) <-> on_ a.
Proof.
  intros (x, y). unfold on_curve, W. cbn [fst snd]. rewrite equal_M, on_scaled, modulus_p. pose proof (V_lt x) as X. pose proof (V_lt y) as Y.
  pose proof (scaled_on_p x y) as H. split.
  - intros (_ & _ & E). apply H. exact E.
  - intros E. split; [exact X|]. split; [exact Y|]. apply H. exact E.
Qed.

Lemma curve_point : forall a, on_curve a -> exists a', a = W a' /\ on_ a'.
Proof.
  intros (x, y) H. exists (M x, M y). assert ((x, y) = W (M x, M y)) as E.
  { destruct H as (X & Y & _). rewrite modulus_p in X, Y. unfold W. cbn [fst snd]. rewrite !V_M by assumption. reflexivity. }
  split; [exact E|]. apply curve_W. rewrite <- E. exact H.
Qed.

Lemma sum_scaled : forall m n x1 y1 x2 y2 x3 y3,
  (M (n * V x3) = M (n * (V x1 * V y2 + V x2 * V y1) + m * (V x1 * V x2 * (V y1 * V y2) * V x3))
   /\ M (V y3 * (n + m * (V x1 * V x2 * (V y1 * V y2)))) = M (n * (V y1 * V y2 + V x1 * V x2)))
  <-> (M n * x3 = M n * (x1 * y2 + x2 * y1) + M m * (x1 * x2 * (y1 * y2) * x3)
   /\ y3 * (M n + M m * (x1 * x2 * (y1 * y2))) = M n * (y1 * y2 + x1 * x2))%F.
Proof. intros. repeat first [rewrite <- M_add|rewrite <- M_mul|rewrite M_V]. reflexivity. Qed.

Lemma sum_W : forall a b c, on_ a -> on_ b -> (ed_sum (W a) (W b) (W c) <-> c = sum a b).
Proof.
  intros (x1, y1) (x2, y2) (x3, y3) A B. pose proof (scaled_sum_p x1 y1 x2 y2 x3 y3 A B) as H. pose proof (curve_W (x3, y3)) as C.
  pose proof (on_sum _ _ A B) as S. unfold ed_sum. unfold W in *. cbn [fst snd] in *. rewrite !equal_M, sum_scaled. split.
  - intros (_ & E). apply H. exact E.
  - intros E. split; [apply C; rewrite E; exact S|]. apply H. exact E.
Qed.

Lemma sum_point : forall a b c, on_ a -> on_ b -> ed_sum (W a) (W b) c -> c = W (sum a b).
Proof.
  intros a b c A B H. assert (on_curve c) as C by (destruct a, b, c; exact (proj1 H)).
  apply curve_point in C. destruct C as (c' & -> & _). apply sum_W in H; [|exact A|exact B]. rewrite H. reflexivity.
Qed.

Lemma W_none : W none = (0, 1).
Proof. unfold W, none, origin. cbn [fst snd]. rewrite <- zero_V, <- one_V. reflexivity. Qed.

Lemma manyN_1 : forall a, manyN 1 a = a.
Proof. reflexivity. Qed.

Lemma multiple_W : forall a n, on_ a -> ed_multiple (W a) n (W (manyN n a)).
Proof.
  intros a n A. induction n as [|n IH] using N.peano_ind.
  - change (manyN 0 a) with none. rewrite W_none. constructor.
  - rewrite <- N.add_1_r. apply em_more with (1 := IH). apply sum_W; [apply on_manyN; exact A|exact A|].
    rewrite manyN_add, manyN_1 by exact A. reflexivity.
Qed.

Lemma multiple_point : forall a n b, on_ a -> ed_multiple (W a) n b -> b = W (manyN n a).
Proof.
  intros a n b A H. induction H as [|n b c H IH S]; [symmetry; exact W_none|]. subst b.
  apply sum_point in S; [|apply on_manyN; exact A|exact A]. rewrite S, manyN_add, manyN_1 by exact A. reflexivity.
Qed.

(** the base point *)
Lemma base_spec : ed_base (W base_point).
Proof.
  split; [apply curve_W; exact on_base|]. unfold W, base_point. cbn [fst snd]. rewrite !V_M by apply base_lt.
  split; vm_compute; reflexivity.
Qed.

Lemma same_square : forall c x x' : Fp, c <> 0%F -> (x * x * c = x' * x' * c)%F -> x = x' \/ x = opp_ x'.
Proof. intros c x x' C E. apply roots. apply (cancel_p c); [exact C|]. replace (c * (x * x))%F with (x * x * c)%F by ring. rewrite E. ring. Qed.

Lemma opp_0 : forall x, opp_ x = 0%F -> x = 0%F.
Proof. intros x H. replace x with (opp_ (opp_ x)) by ring. rewrite H. ring. Qed.

(** a point is determined by [y] and the parity of [x] *)
Lemma point_unique : forall x x' y, on_ (x, y) -> on_ (x', y) -> V x mod 2 = V x' mod 2 -> x = x'.
Proof.
  intros x x' y A B P. apply on_xy in A. apply on_xy in B. destruct A as (A & N0), B as (B & _). rewrite A in B.
  destruct (same_square _ _ _ N0 B) as [E|E]; [exact E|]. destruct (fp_dec x' 0%F) as [X|X].
  - rewrite E, X. ring.
  - rewrite E in P. destruct (parity_opp x' X P).
Qed.

Lemma fifth : forall y, equal (5 * y) 4 -> M y = M base_y.
Proof.
  intros y H. apply equal_M in H. assert (M 5 <> 0%F) as Z. { rewrite <- M_0. intros E. apply M_eq in E. vm_compute in E. discriminate E. }
  apply (cancel_p (M 5)); [exact Z|]. rewrite !M_mul, H. apply M_eq. vm_compute. reflexivity.
Qed.

Lemma base_unique : forall b, ed_base b -> b = W base_point.
Proof.
  intros b (C & Y & P). apply curve_point in C. destruct C as ((x, y) & -> & O). unfold W in Y, P. cbn [fst snd] in Y, P.
  apply fifth in Y. rewrite M_V in Y. subst y. unfold base_point.
  rewrite (point_unique x (M base_x) (M base_y)); [reflexivity|exact O|exact on_base|].
  rewrite P, V_M by apply base_lt. vm_compute. reflexivity.
Qed.

(** ** Bytes *)

Lemma little_from : forall bs n, little_endian bs n -> from_le bs = n /\ Forall is_byte bs.
Proof. intros bs n H. apply big_endian_from in H. destruct H as (H & B). split; [exact H|]. apply Forall_rev in B. rewrite rev_involutive in B. exact B. Qed.

Lemma from_little : forall bs, Forall is_byte bs -> little_endian bs (from_le bs).
Proof. intros bs H. apply from_big_endian. apply Forall_rev. exact H. Qed.

Lemma to_from_le : forall bs, Forall is_byte bs -> to_le (length bs) (from_le bs) = bs.
Proof.
  intros bs H. pose proof (to_from_be (rev bs) (Forall_rev H)) as E. unfold to_be in E. rewrite rev_length in E.
  apply (f_equal (@rev N)) in E. rewrite !rev_involutive in E. exact E.
Qed.

Lemma little_to : forall n x, x < 256 ^ N.of_nat n -> little_endian (to_le n x) x.
Proof. intros n x H. rewrite <- (N.mod_small x _ H) at 2. rewrite <- from_to_le. apply from_little. apply to_le_bytes. Qed.

Lemma little_is : forall n bs x, little_endian bs x -> length bs = n -> bs = to_le n x.
Proof. intros n bs x H L. apply little_from in H. destruct H as (<- & B). subst n. symmetry. apply to_from_le. exact B. Qed.

Lemma sha512_length : forall m, length (sha512 m) = 64%nat.
Proof.
  intros m. unfold sha512. rewrite flat_be_length, (fold_length _ _ _ 8); [reflexivity|apply compress_length|reflexivity].
Qed.

Lemma sha512_bytes : forall m, Forall is_byte (sha512 m).
Proof. intros m. apply flat_be_bytes. Qed.

Lemma bits_W : forall a, bits a = snd (W a) + 2 ^ 255 * (fst (W a) mod 2).
Proof. intros (x, y). unfold bits, W. cbn [fst snd]. rewrite land_1, N.shiftl_mul_pow2, N.mul_comm. reflexivity. Qed.

Lemma bits_lt : forall a, bits a < 256 ^ N.of_nat 32.
Proof.
  intros (x, y). unfold bits. cbn [fst snd]. rewrite land_1, N.shiftl_mul_pow2.
  pose proof (V_lt y) as L. pose proof p_small as S. pose proof (N.mod_lt (V x) 2 ltac:(lia)) as B.
  change (256 ^ N.of_nat 32) with (2 ^ 255 * 2). assert (V y < 2 ^ 255) as L' by (eapply N.lt_trans; eassumption).
  clear - L' B. generalize dependent (2 ^ 255). generalize dependent (V y). generalize dependent (V x mod 2). intros. nia.
Qed.

Lemma encoding_W : forall a bs, on_ a -> (ed_encoding (W a) bs <-> bs = to_le 32 (bits a)).
Proof.
  intros a bs O. unfold ed_encoding. rewrite <- bits_W. split.
  - intros (_ & L & H). apply little_is; assumption.
  - intros ->. split; [apply curve_W; exact O|]. split; [apply to_le_length|]. apply little_to. apply bits_lt.
Qed.

Lemma encoding_point : forall a bs, ed_encoding a bs -> exists a', a = W a' /\ on_ a' /\ bs = to_le 32 (bits a').
Proof.
  intros a bs H. destruct (curve_point a (proj1 H)) as (a' & -> & O). exists a'. split; [reflexivity|]. split; [exact O|].
  apply encoding_W; assumption.
Qed.

(** ** Reading points *)

Lemma root_sound : forall u v x, root (V u) (V v) = Some x -> exists c, x = V c /\ (u = c * c * v)%F.
Proof.
  intros u v x. unfold root, root_candidate. rewrite !mul_V, powN_V, !mul_V.
  set (c := (u * (v * (v * v)) * pow_ (u * (v * (v * v) * (v * (v * (v * v))))) ((p - 5) / 8))%F). clearbody c.
  destruct (N.eqb_spec (V (v * (c * c))%F) (V u)) as [H|H].
  - apply V_inj in H. intros E. injection E as <-. exists c. split; [reflexivity|]. rewrite <- H. ring.
  - clear H. rewrite zero_V, minus_V. destruct (N.eqb_spec (V (v * (c * c))%F) (V (0 - u)%F)) as [H|H]; [|discriminate].
    apply V_inj in H. rewrite two_V, powN_V, two_quarter, mul_V. intros E. exists (c * ii)%F. split; [symmetry; apply (f_equal (fun o => match o with Some n => n | None => 0 end) E)|].
    replace (c * ii * (c * ii) * v)%F with ((v * (c * c)) * ((ii * ii + 1) - 1))%F by ring. rewrite H, ii_spec. ring.
Qed.

Lemma sign_sound : forall y s c q, s < 2 -> with_sign (V y) s (V c) = Some q ->
  exists x, (x = c \/ x = opp_ c) /\ V x mod 2 = s /\ rep q (x, y).
Proof.
  intros y s c q S. unfold with_sign. rewrite !land_1.
  assert (forall x, rep (V x, V y, 1, mul (V x) (V y)) (x, y)) as R.
  { intros x. exists 1%F. split; [exact one_zero_p|]. cbn [fst snd]. rewrite mul_V, one_V. apply quadruple; ring. }
  destruct (fp_dec c 0%F) as [C|C].
  - subst c. rewrite <- zero_V. change (0 =? 0) with true. cbn [andb]. destruct (N.eqb_spec s 1) as [X|X]; [discriminate|].
    assert (s = 0) as -> by lia. change (0 mod 2 =? 0) with true. cbv iota. intros E. exists 0%F. split; [left; reflexivity|].
    split; [rewrite <- zero_V; reflexivity|]. apply (f_equal (fun o => match o with Some n => n | None => q end)) in E. rewrite <- E, zero_V. apply R.
  - destruct (N.eqb_spec (V c) 0) as [Z|_]; [apply V_zero in Z; contradiction|]. cbn [andb].
    destruct (N.eqb_spec (V c mod 2) s) as [X|X]; intros E; apply (f_equal (fun o => match o with Some n => n | None => q end)) in E; rewrite <- E.
    + exists c. auto.
    + exists (opp_ c). split; [right; reflexivity|]. rewrite <- opp_V by exact C. split; [|apply R].
      pose proof (parity_opp c C) as P. pose proof (N.mod_lt (V c) 2 ltac:(lia)). pose proof (N.mod_lt (V (opp_ c)) 2 ltac:(lia)).
      generalize dependent (V c mod 2). generalize dependent (V (opp_ c) mod 2). clear - S. intros. lia.
Qed.

Lemma opp_square : forall c x, x = c \/ x = opp_ c -> (x * x = c * c)%F.
Proof. intros c x [->| ->]; ring. Qed.

Lemma ratio_on : forall x y, (y * y - 1 = x * x * (dd * (y * y) + 1))%F -> on_ (x, y).
Proof.
  intros x y H. unfold on_, EdwardsProofs.on. cbn [fst snd]. generalize dependent dd. intros e H.
  replace (y * y - x * x)%F with ((y * y - 1) + 1 - x * x)%F by ring. rewrite H. ring.
Qed.

Theorem decode_sound : forall bs q, Forall is_byte bs -> decode bs = Some q -> exists a, on_ a /\ rep q a /\ bs = to_le 32 (bits a).
Proof.
  intros bs q B. unfold decode. destruct (Nat.eqb_spec (length bs) 32) as [L|L]; [|discriminate].
  assert (from_le bs < 256 ^ N.of_nat 32) as U. { unfold from_le. rewrite <- L, <- rev_length. apply from_be_bound. apply Forall_rev. exact B. }
  change (256 ^ N.of_nat 32) with (2 ^ 255 * 2) in U.
  rewrite N.land_ones, N.shiftr_div_pow2. unfold decode_y.
  destruct (N.leb_spec p (from_le bs mod 2 ^ 255)) as [Z|Y]; [discriminate|].
  assert (2 ^ 255 <> 0) as N0 by (vm_compute; discriminate).
  assert (from_le bs / 2 ^ 255 < 2) as S by (apply N.div_lt_upper_bound; [exact N0|exact U]).
  pose proof (N.div_mod (from_le bs) (2 ^ 255) N0) as E.
  assert (exists y, from_le bs mod 2 ^ 255 = V y) as (y & Y') by (exists (M (from_le bs mod 2 ^ 255)); symmetry; apply V_M; exact Y).
  rewrite Y' in *. clear Y Y'. rewrite mul_V, minus_1, <- V_d, mul_V, plus_1.
  destruct (root (V (y * y - 1)%F) (V (dd * (y * y) + 1)%F)) as [c|] eqn:Rt; [|discriminate].
  apply root_sound in Rt. destruct Rt as (c' & -> & H). cbn [obind]. intros W0. apply sign_sound in W0; [|exact S].
  destruct W0 as (x & X & P & R). exists (x, y). apply opp_square in X. rewrite <- X in H. split; [apply ratio_on; exact H|]. split; [exact R|].
  rewrite <- (to_from_le bs B), L. apply (f_equal (to_le 32)). rewrite E, bits_W. unfold W. cbn [fst snd]. rewrite P. apply N.add_comm.
Qed.

Lemma decode_complete : forall a bs, ed_encoding a bs -> exists q a', a = W a' /\ on_ a' /\ decode bs = Some q /\ rep q a'.
Proof.
  intros a bs H. apply encoding_point in H. destruct H as (a' & -> & O & ->).
  destruct (decode_encode a' O) as (q & D & R). eauto 10.
Qed.

Lemma read_split : forall bs, Forall is_byte bs -> length bs = 32%nat -> exists y sign, from_le bs = y + 2 ^ 255 * sign /\ y < 2 ^ 255 /\ sign < 2
  /\ from_le bs mod 2 ^ 255 = y /\ from_le bs / 2 ^ 255 = sign.
Proof.
  intros bs B L. assert (from_le bs < 256 ^ N.of_nat 32) as U. { unfold from_le. rewrite <- L, <- rev_length. apply from_be_bound. apply Forall_rev. exact B. }
  change (256 ^ N.of_nat 32) with (2 ^ 255 * 2) in U. assert (2 ^ 255 <> 0) as N0 by (vm_compute; discriminate).
  exists (from_le bs mod 2 ^ 255), (from_le bs / 2 ^ 255). split; [rewrite N.add_comm; apply N.div_mod; exact N0|].
  split; [apply N.mod_lt; exact N0|]. split; [|auto]. apply N.div_lt_upper_bound; [exact N0|exact U].
Qed.

Lemma parity_sound : forall y s c, s < 2 -> exists x, (x = c \/ x = opp_ c) /\ (s = V x mod 2 \/ x = 0%F) /\ rep (with_parity (V y) s (V c)) (x, y).
Proof.
  intros y s c S. destruct (fp_dec c 0%F) as [C|C].
  - exists c. split; [left; reflexivity|]. split; [right; exact C|]. apply with_parity_V; [left; reflexivity|right; exact C].
  - destruct (N.eq_dec (V c mod 2) s) as [P|P].
    + exists c. split; [left; reflexivity|]. split; [left; symmetry; exact P|]. apply with_parity_V; left; [reflexivity|symmetry; exact P].
    + assert (s = V (opp_ c) mod 2) as Q.
      { pose proof (parity_opp c C) as X. pose proof (N.mod_lt (V c) 2 ltac:(lia)). pose proof (N.mod_lt (V (opp_ c)) 2 ltac:(lia)).
        generalize dependent (V c mod 2). generalize dependent (V (opp_ c) mod 2). clear - S. intros. lia. }
      exists (opp_ c). split; [right; reflexivity|]. split; [left; exact Q|]. apply with_parity_V; [right; ring|left; exact Q].
Qed.

Lemma V_mod : forall a, V a mod p = V a.
Proof. intros a. apply N.mod_small. apply V_lt. Qed.

Theorem read_sound : forall bs q, Forall is_byte bs -> read_point bs = Some q -> exists a, on_ a /\ rep q a /\ ed_reading (W a) bs.
Proof.
  intros bs q B. unfold read_point. destruct (Nat.eqb_spec (length bs) 32) as [L|L]; [|discriminate].
  destruct (read_split bs B L) as (n & s & E & N0 & S & Hn & Hs). rewrite N.land_ones, N.shiftr_div_pow2, Hn, Hs. cbv zeta.
  assert (n mod p < p) as Lt by (apply N.mod_lt; vm_compute; discriminate).
  assert (exists y, n mod p = V y) as (y & Y) by (exists (M (n mod p)); symmetry; apply V_M; exact Lt).
  rewrite Y. rewrite mul_V, minus_1, <- V_d, mul_V, plus_1.
  destruct (root (V (y * y - 1)%F) (V (dd * (y * y) + 1)%F)) as [c|] eqn:Rt; [|discriminate].
  apply root_sound in Rt. destruct Rt as (c' & -> & H). cbn [option_map]. intros Q.
  apply (f_equal (fun o => match o with Some n => n | None => q end)) in Q. subst q.
  destruct (parity_sound y s c' S) as (x & X & P & R). exists (x, y). apply opp_square in X. rewrite <- X in H.
  pose proof (ratio_on _ _ H) as O. split; [exact O|]. split; [exact R|].
  split; [apply curve_W; exact O|]. split; [exact L|]. exists n, s. split; [rewrite <- E; apply from_little; exact B|]. split; [exact N0|].
  unfold equal, W. cbn [fst snd]. rewrite modulus_p, V_mod. split; [exact Y|]. split; [exact S|].
  destruct P as [P|P]; [left; exact P|right]. rewrite P. symmetry. exact zero_V.
Qed.

Lemma read_found : forall a bs, ed_reading a bs -> exists q a', a = W a' /\ on_ a' /\ read_point bs = Some q /\ rep q a'.
Proof.
  intros a bs (C & L & y & sign & E & Y & Q & S & P). apply curve_point in C. destruct C as ((u, v) & -> & O).
  apply little_from in E. destruct E as (E & _). assert (2 ^ 255 <> 0) as N0 by (vm_compute; discriminate). rewrite (N.mul_comm (2 ^ 255)) in E.
  unfold equal, W in *. cbn [fst snd] in *. rewrite modulus_p, V_mod in Q.
  destruct (read_complete bs u v O L) as (q & D & R).
  - rewrite E, N.mod_add, (N.mod_small y) by assumption. exact Q.
  - rewrite E, N.div_add, (N.div_small y) by assumption. cbn [N.add]. destruct P as [P|P]; [left; exact P|right]. apply V_zero. exact P.
  - exists q, (u, v). auto.
Qed.

Lemma encoding_reading : forall a bs, ed_encoding a bs -> ed_reading a bs.
Proof.
  intros a bs (C & L & E). split; [exact C|]. split; [exact L|]. exists (snd a), (fst a mod 2). split; [exact E|].
  destruct a as (x, y). destruct C as (_ & C & _). cbn [fst snd]. split; [eapply N.lt_trans; [exact C|vm_compute; reflexivity]|].
  split; [reflexivity|]. split; [apply N.mod_lt; discriminate|]. left. reflexivity.
Qed.

Theorem key_readable : forall bs, Forall is_byte bs -> ((exists q, ed_key bs = Some q) <-> exists a, ed_reading a bs).
Proof.
  intros bs B. unfold ed_key. split.
  - intros (q & H). destruct (read_point bs) as [q'|] eqn:D; [|discriminate]. apply read_sound in D; [|exact B].
    destruct D as (a & _ & _ & E). exists (W a). exact E.
  - intros (a & H). apply read_found in H. destruct H as (q & a' & _ & _ & -> & _). eexists. reflexivity.
Qed.

(** ** Private keys *)

Lemma land_shifted : forall s n k, N.land s (N.shiftl (N.ones n) k) = s / 2 ^ k mod 2 ^ n * 2 ^ k.
Proof.
  intros s n k. rewrite <- N.shiftl_mul_pow2, <- N.land_ones, <- N.shiftr_div_pow2. apply N.bits_inj. intros i. rewrite N.land_spec.
  destruct (N.le_gt_cases k i) as [H|H].
  - rewrite !N.shiftl_spec_high' by exact H. rewrite N.land_spec, N.shiftr_spec'. replace (i - k + k) with i by lia. reflexivity.
  - rewrite !N.shiftl_spec_low by exact H. apply Bool.andb_false_r.
Qed.

Lemma lor_high : forall x k, x < 2 ^ k -> N.lor x (2 ^ k) = 2 ^ k + x.
Proof.
  intros x k H. assert (N.land x (2 ^ k) = 0) as Z.
  { apply N.bits_inj. intros i. rewrite N.land_spec, N.pow2_bits_eqb, N.bits_0. destruct (N.eqb_spec k i) as [E|E]; [|apply Bool.andb_false_r].
    subst i. rewrite <- (N.mod_small x _ H), N.mod_pow2_bits_high; [reflexivity|lia]. }
  rewrite <- N.lxor_lor by exact Z. rewrite <- N.add_nocarry_lxor by exact Z. apply N.add_comm.
Qed.

Lemma clamp : forall s, N.lor (N.land s (2 ^ 254 - 8)) (2 ^ 254) = 2 ^ 254 + 8 * (s / 8 mod 2 ^ 251).
Proof.
  intros s. change (2 ^ 254 - 8) with (N.shiftl (N.ones 251) 3). rewrite land_shifted. change (2 ^ 3) with 8.
  rewrite (N.mul_comm _ 8). apply lor_high. change (2 ^ 254) with (8 * 2 ^ 251). apply N.mul_lt_mono_pos_l; [lia|].
  apply N.mod_lt. vm_compute. discriminate.
Qed.

Lemma expand_spec : forall key, ed_expanded sha512 key (fst (expand key)) (snd (expand key)).
Proof.
  intros key. exists (firstn 32 (sha512 key)), (from_le (firstn 32 (sha512 key))). unfold expand. cbn [fst snd].
  split; [symmetry; apply firstn_skipn|]. split; [rewrite firstn_length, sha512_length; reflexivity|].
  split; [|rewrite clamp; reflexivity]. apply from_little. pose proof (sha512_bytes key) as B. rewrite <- (firstn_skipn 32) in B. apply Forall_app in B. apply B.
Qed.

Lemma expand_unique : forall key s prefix, ed_expanded sha512 key s prefix -> s = fst (expand key) /\ prefix = snd (expand key).
Proof.
  intros key s prefix (low & h & E & L & H & ->). unfold expand. cbn [fst snd]. rewrite E.
  destruct (firstn_32 low prefix L) as (-> & ->). apply little_from in H. destruct H as (-> & _). rewrite clamp. auto.
Qed.

Lemma base_multiple : forall b n a, ed_base b -> ed_multiple b n a -> a = W (manyN n base_point).
Proof. intros b n a B H. apply base_unique in B. subst b. apply multiple_point; [exact on_base|exact H]. Qed.

Lemma multiple_encoding : forall k bs, ed_encoding (W (manyN k base_point)) bs <-> bs = encode (scale k base).
Proof.
  intros k bs. rewrite (encode_rep _ _ (rep_multiple k)). apply encoding_W. apply on_manyN. exact on_base.
Qed.

Theorem public_spec : forall key public, ed_public_key sha512 key public <-> public = ed_public key.
Proof.
  intros key public. unfold ed_public. split.
  - intros (s & prefix & b & a & E & B & Mu & En). apply expand_unique in E. destruct E as (-> & _).
    apply base_multiple in Mu; [|exact B]. subst a. apply multiple_encoding. exact En.
  - intros ->. exists (fst (expand key)), (snd (expand key)), (W base_point), (W (manyN (fst (expand key)) base_point)).
    split; [apply expand_spec|]. split; [exact base_spec|]. split; [apply multiple_W; exact on_base|]. apply multiple_encoding. reflexivity.
Qed.

(** ** Signatures *)

Lemma ed_order_order : ed_order = order.
Proof. reflexivity. Qed.

Lemma order_small : order < 256 ^ N.of_nat 32.
Proof. vm_compute. reflexivity. Qed.

Lemma multiple_reduced : forall r, manyN (r mod order) base_point = manyN r base_point.
Proof. intros r. apply manyN_mod; [exact on_base|exact order_nonzero|exact base_order]. Qed.

Lemma encode_reduced : forall r, encode (scale (r mod order) base) = encode (scale r base).
Proof. intros r. rewrite !(encode_rep _ _ (rep_multiple _)), multiple_reduced. reflexivity. Qed.

Lemma reduced : forall r k s, ((r mod order) + (k mod order) * s) mod order = (r + k * s) mod order.
Proof.
  pose proof order_nonzero as N0. generalize dependent order. intros n N0 r k s.
  rewrite N.add_mod, N.mod_mod, N.mul_mod, N.mod_mod, <- N.mul_mod, <- N.add_mod by exact N0. reflexivity.
Qed.

Lemma hash_number : forall m n, little_endian (sha512 m) n <-> n = from_le (sha512 m).
Proof.
  intros m n. split; [intros H; apply little_from in H; symmetry; apply H|]. intros ->. apply from_little. apply sha512_bytes.
Qed.

Theorem signature_spec : forall key msg sig, ed_signature sha512 key msg sig <-> sig = ed25519_sign key msg.
Proof.
  intros key msg sig. unfold ed25519_sign, ed_sign_with. cbv zeta. rewrite encode_reduced, reduced. split.
  - intros (s & prefix & public & r & hr & rr & k & low & E & P & R & (b & B & Mu) & En & K & L & H & ->).
    apply expand_unique in E. destruct E as (-> & ->). apply public_spec in P. subst public. apply hash_number in R. subst r.
    apply base_multiple in Mu; [|exact B]. subst rr. apply multiple_encoding in En. subst hr. apply hash_number in K. subst k.
    apply (f_equal (app _)). rewrite ed_order_order in H. apply little_is; assumption.
  - intros ->. set (s := fst (expand key)). set (prefix := snd (expand key)). set (r := from_le (sha512 (prefix ++ msg))).
    set (k := from_le (sha512 (encode (scale r base) ++ encode (scale s base) ++ msg))).
    exists s, prefix, (ed_public key), r, (encode (scale r base)), (W (manyN r base_point)), k, (to_le 32 ((r + k * s) mod order)).
    split; [apply expand_spec|]. split; [apply public_spec; reflexivity|]. split; [apply hash_number; reflexivity|].
    split. { exists (W base_point). split; [exact base_spec|]. apply multiple_W. exact on_base. }
    split; [apply multiple_encoding; reflexivity|]. split; [apply hash_number; reflexivity|]. split; [apply to_le_length|].
    split; [|reflexivity]. rewrite ed_order_order. apply little_to. eapply N.lt_trans; [apply N.mod_lt; exact order_nonzero|exact order_small].
Qed.

Theorem valid_spec : forall public q msg sig, Forall is_byte public -> Forall is_byte sig -> ed_key public = Some q ->
  (ed25519_verify q msg sig = true <-> ed_valid sha512 public msg sig).
Proof.
  intros public q msg sig Bp Bs K. unfold ed_key in K. destruct (read_point public) as [a|] eqn:D; [|discriminate].
  assert (q = (public, a)) as -> by (cbn [option_map] in K; congruence). clear K.
  pose proof D as Dq. apply read_sound in D; [|exact Bp]. destruct D as (a' & A & Ra & Ea).
  unfold ed25519_verify. destruct (Nat.eqb_spec (length sig) 64) as [L|L]; cbn [fst snd].
  2: { split; [discriminate|]. intros (hr & low & rr & a0 & b & s & k & x & y & -> & En & _ & _ & Ll & _). destruct L.
       rewrite app_length, Ll, (proj1 (proj2 En)). reflexivity. }
  pose proof (firstn_skipn 32 sig) as Split. set (hr := firstn 32 sig) in *. set (low := skipn 32 sig) in *.
  assert (length hr = 32 /\ length low = 32)%nat as (Lh & Ll). { unfold hr, low. rewrite firstn_length, skipn_length, L. auto. }
  rewrite <- Split in Bs. apply Forall_app in Bs. destruct Bs as (Bh & Bl).
  split.
  - destruct (decode hr) as [rr|] eqn:Dr; [|cbn [option_map default]; intros X; discriminate X]. apply decode_sound in Dr; [|exact Bh]. destruct Dr as (r' & R & Rr & Er).
    cbn [option_map default]. unfold ed_check. fold hr. fold low. cbv zeta. destruct (N.ltb_spec (from_le low) order) as [Lt|]; [|discriminate].
    set (k := from_le (sha512 (hr ++ public ++ msg))). intros Same.
    assert (rep (padd rr (scale (k mod order) a)) (sum r' (manyN (k mod order) a'))) as Rs.
    { apply rep_padd; [exact Rr|apply rep_scale; assumption|exact R|apply on_manyN; exact A]. }
    pose proof (rep_same _ _ _ _ (rep_multiple _) Rs Same) as Eq.
    exists hr, low, (W r'), (W a'), (W base_point), (from_le low), k, (W (manyN (from_le low) base_point)), (W (manyN (k mod order) a')).
    split; [symmetry; exact Split|]. split; [apply encoding_W; assumption|]. split; [exact Ea|]. split; [exact base_spec|].
    split; [exact Ll|]. split; [apply from_little; exact Bl|]. split; [exact Lt|]. split; [apply hash_number; reflexivity|].
    split; [apply multiple_W; exact on_base|]. split; [apply multiple_W; exact A|]. apply sum_W; [exact R|apply on_manyN; exact A|exact Eq].
  - intros (hr' & low' & rr & a0 & b & s & k & x & y & E & En & Ea0 & B & Ll' & Hs & Lt & K & Mx & My & S).
    assert (hr' = hr /\ low' = low) as (-> & ->).
    { unfold hr, low. rewrite E. destruct (firstn_32 hr' low' (proj1 (proj2 En))) as (-> & ->). auto. }
    apply little_from in Hs. destruct Hs as (<- & _). apply hash_number in K. subst k.
    apply decode_complete in En. destruct En as (rr' & r' & -> & R & -> & Rr). cbn [option_map default]. unfold ed_check. fold hr. fold low. cbv zeta.
    rewrite ed_order_order in *. destruct (N.ltb_spec (from_le low) order) as [_|X]; [|lia].
    apply base_multiple in Mx; [|exact B]. subst x.
    assert (a0 = W a') as ->.
    { apply read_found in Ea0. destruct Ea0 as (q1 & a1 & -> & A1 & D1 & R1). rewrite Dq in D1. apply (f_equal W).
      assert (q1 = a) as -> by congruence. apply (rep_same a a); [exact R1|exact Ra|]. apply (same_rep _ _ a1); exact R1. }
    apply multiple_point in My; [|exact A]. subst y. apply sum_W in S; [|exact R|apply on_manyN; exact A].
    apply (same_rep _ _ (manyN (from_le low) base_point)); [apply rep_multiple|]. rewrite S.
    apply rep_padd; [exact Rr|apply rep_scale; assumption|exact R|apply on_manyN; exact A].
Qed.
