(** Proofs: the arithmetic of Concrete.v is that of the curve edwards25519. *)

From Coq Require Import List Lia ZArith NArith Ring Field.
From Verif Require Import Base SpecRsa Concrete Lib NumberProofs ConcreteProofs PocklingtonProofs P25519Proofs FieldProofs EdwardsProofs.
Import ListNotations.
Open Scope N_scope.

(** ** The field *)

Definition Fp : Type := Fld p.
Definition M : N -> Fp := mk p p_prime.
Definition V : Fp -> N := val p.
Definition z0 : Fp := f0 p p_prime.
Definition z1 : Fp := f1 p p_prime.
Definition add_ : Fp -> Fp -> Fp := fadd p p_prime.
Definition mul_ : Fp -> Fp -> Fp := fmul p p_prime.
Definition sub_ : Fp -> Fp -> Fp := fsub p p_prime.
Definition opp_ : Fp -> Fp := fopp p p_prime.
Definition div_ : Fp -> Fp -> Fp := fdiv p p_prime.
Definition inv_ : Fp -> Fp := finv p p_prime.
Definition pow_ : Fp -> N -> Fp := npow p p_prime.

Lemma fp_field : field_theory z0 z1 add_ mul_ sub_ opp_ div_ inv_ eq.
Proof. exact (f_field p p_prime). Qed.

Add Field fp : fp_field.

Declare Scope F_scope.
Delimit Scope F_scope with F.
Infix "+" := add_ : F_scope.
Infix "*" := mul_ : F_scope.
Infix "-" := sub_ : F_scope.
Infix "/" := div_ : F_scope.
Notation "0" := z0 : F_scope.
Notation "1" := z1 : F_scope.

Lemma V_lt : forall a, V a < p.
Proof. exact (val_lt p). Qed.
Lemma V_inj : forall a b, V a = V b -> a = b.
Proof. exact (val_inj p). Qed.
Lemma V_M : forall x, x < p -> V (M x) = x.
Proof. exact (val_mk_small p p_prime). Qed.
Lemma V_M_mod : forall x, V (M x) = x mod p.
Proof. exact (val_mk p p_prime). Qed.
Lemma M_V : forall a, M (V a) = a.
Proof. exact (mk_val p p_prime). Qed.
Lemma M_add : forall x y, (M x + M y)%F = M (x + y).
Proof. exact (mk_add p p_prime). Qed.
Lemma M_mul : forall x y, (M x * M y)%F = M (x * y).
Proof. exact (mk_mul p p_prime). Qed.
Lemma M_sub : forall x y, y <= x -> M (x - y) = (M x - M y)%F.
Proof. exact (mk_sub p p_prime). Qed.
Lemma M_p : M p = 0%F.
Proof. exact (mk_n p p_prime). Qed.
Lemma M_eq : forall x y, M x = M y <-> x mod p = y mod p.
Proof. exact (mk_eq p p_prime). Qed.
Lemma V_zero : forall a, V a = 0 <-> a = 0%F.
Proof. exact (val_zero p p_prime). Qed.
Lemma pow_add : forall a j k, pow_ a (j + k) = (pow_ a j * pow_ a k)%F.
Proof. exact (npow_add p p_prime). Qed.
Lemma pow_mul : forall a j k, pow_ a (j * k) = pow_ (pow_ a j) k.
Proof. exact (npow_mul p p_prime). Qed.
Lemma pow_mul_base : forall a b k, pow_ (a * b)%F k = (pow_ a k * pow_ b k)%F.
Proof. exact (npow_mul_base p p_prime). Qed.
Lemma pow_1 : forall a, pow_ a 1 = a.
Proof. exact (npow_1 p p_prime). Qed.
Lemma pow_2 : forall a, pow_ a 2 = (a * a)%F.
Proof. exact (npow_2 p p_prime). Qed.
Lemma pow_zero : forall k, k <> 0 -> pow_ 0%F k = 0%F.
Proof. exact (npow_zero p p_prime). Qed.
Lemma pow_fermat : forall a, a <> 0%F -> pow_ a (p - 1) = 1%F.
Proof. exact (npow_fermat p p_prime). Qed.
Lemma pow_half : forall a h, p - 1 = h * 2 -> a <> 0%F -> pow_ a h = 1%F \/ pow_ a h = opp_ 1%F.
Proof. exact (npow_half p p_prime). Qed.
Lemma roots : forall a b, (a * a = b * b)%F -> a = b \/ a = opp_ b.
Proof. exact (square_roots p p_prime). Qed.
Lemma p_big : 2 ^ 254 < p.
Proof. vm_compute. reflexivity. Qed.
Lemma p_small : p < 2 ^ 255.
Proof. vm_compute. reflexivity. Qed.

Lemma red_spec : forall x, x < 2 ^ 510 -> red x = x mod p.
Proof.
  intros x H. unfold red. cbv zeta. change (N.land x (N.ones 255) + 19 * N.shiftr x 255) with (fold x).
  change (N.land (fold x) (N.ones 255) + 19 * N.shiftr (fold x) 255) with (fold (fold x)).
  assert (forall z k, z < 2 ^ 255 * k -> fold z < 2 ^ 255 + 19 * k) as B.
  { intros z k Hz. unfold fold. rewrite N.land_ones, N.shiftr_div_pow2. pose proof (N.mod_lt z (2 ^ 255)) as X.
    pose proof (N.div_lt_upper_bound z (2 ^ 255) k) as Y.
    set (m := 2 ^ 255) in *. assert (m <> 0) as Z by (vm_compute; discriminate). specialize (X Z). specialize (Y Z Hz). clear - X Y.
    assert (z / m < k) as Y' by exact Y. generalize dependent (z / m). generalize dependent (z mod m). intros. lia. }
  assert (fold (fold x) < 2 ^ 255 + 19 * 20) as L.
  { apply B. replace (2 ^ 255 * 20) with (2 ^ 255 + 19 * 2 ^ 255) by lia. apply B.
    replace (2 ^ 255 * 2 ^ 255) with (2 ^ 510) by (vm_compute; reflexivity). exact H. }
  rewrite <- (fold_mod x), <- (fold_mod (fold x)).
  assert (2 ^ 255 + 19 * 20 < 2 * p) as U by (vm_compute; reflexivity). set (z := fold (fold x)) in *.
  assert (z < 2 * p) as L' by (eapply N.lt_trans; eassumption). clear L U B H. pose proof p_nonzero as P0. generalize dependent p. intros q L' P0.
  destruct (N.leb_spec q z) as [G|G]; [|symmetry; apply N.mod_small; exact G].
  replace z with (z - q + 1 * q) at 2 by lia. rewrite N.mod_add by exact P0. symmetry. apply N.mod_small. lia.
Qed.

Lemma red_M : forall x, x < 2 ^ 510 -> red x = V (M x).
Proof. intros x H. rewrite red_spec by exact H. reflexivity. Qed.

Lemma mul_V : forall a b, mul (V a) (V b) = V (a * b)%F.
Proof.
  intros a b. unfold mul. rewrite red_M.
  - rewrite <- M_mul, !M_V. reflexivity.
  - pose proof (V_lt a) as A. pose proof (V_lt b) as B. pose proof p_small as S. replace (2 ^ 510) with (2 ^ 255 * 2 ^ 255) by (vm_compute; reflexivity).
    apply N.mul_lt_mono; eapply N.lt_trans; eassumption.
Qed.

Lemma plus_V : forall a b, plus (V a) (V b) = V (a + b)%F.
Proof.
  intros a b. unfold plus. rewrite red_M.
  - rewrite <- M_add, !M_V. reflexivity.
  - pose proof (V_lt a) as A. pose proof (V_lt b) as B. assert (p + p < 2 ^ 510) by (vm_compute; reflexivity).
    generalize dependent (2 ^ 510). generalize dependent p. intros. lia.
Qed.

Lemma minus_V : forall a b, minus (V a) (V b) = V (a - b)%F.
Proof.
  intros a b. unfold minus. pose proof (V_lt a) as A. pose proof (V_lt b) as B. rewrite red_M.
  - rewrite M_sub, <- M_add, !M_V, M_p by lia. f_equal. ring.
  - assert (p + p < 2 ^ 510) by (vm_compute; reflexivity).
    generalize dependent (2 ^ 510). generalize dependent p. intros. lia.
Qed.

Lemma pow_V : forall a e, pow (V a) e = V (pow_ a (Npos e)).
Proof.
  intros a e. induction e as [e IH|e IH|]; cbn [pow].
  - rewrite IH, !mul_V. f_equal. replace (N.pos e~1) with (N.pos e + N.pos e + 1) by lia.
    rewrite !pow_add, pow_1. reflexivity.
  - rewrite IH, mul_V. f_equal. replace (N.pos e~0) with (N.pos e + N.pos e) by lia. rewrite pow_add. reflexivity.
  - rewrite pow_1. reflexivity.
Qed.

Lemma powN_V : forall a e, powN (V a) e = V (pow_ a e).
Proof.
  intros a [|e]; [|apply pow_V]. cbn [powN]. unfold pow_. rewrite npow_0. symmetry. apply (V_M 1). apply N.lt_trans with (2 ^ 254); [vm_compute; reflexivity|exact p_big].
Qed.

Lemma inv_V : forall a, inv (V a) = V (inv_ a).
Proof. intros a. unfold inv. rewrite powN_V. reflexivity. Qed.

(** small numbers *)
Lemma one_V : 1 = V 1%F.
Proof. symmetry. apply (V_M 1). apply N.lt_trans with (2 ^ 254); [vm_compute; reflexivity|exact p_big]. Qed.
Lemma zero_V : 0 = V 0%F.
Proof. symmetry. apply V_zero. reflexivity. Qed.

(** ** The curve *)

Definition dd : Fp := M d.

Lemma d_lt : d < p.
Proof.
  unfold d. rewrite <- (V_M (p - 121665)), <- (V_M 121666), inv_V, mul_V; [apply V_lt| |].
  - apply N.lt_trans with (2 ^ 254); [vm_compute; reflexivity|exact p_big].
  - vm_compute. reflexivity.
Qed.

Definition d_value : N := 37095705934669439343138083508754565189542113879843219016388785533085940283555.

Lemma d_spec : d = d_value.
Proof.
  assert (121666 < p) as L by (apply N.lt_trans with (2 ^ 254); [vm_compute; reflexivity|exact p_big]).
  assert (p - 121665 < p) as L' by (vm_compute; reflexivity).
  assert (d_value < p) as L2 by (vm_compute; reflexivity).
  rewrite <- (V_M d_value) by exact L2. unfold d. rewrite <- (V_M (p - 121665)), <- (V_M 121666), inv_V, mul_V by assumption. apply (f_equal V).
  assert (M (p - 121665) = M d_value * M 121666)%F as ->. { rewrite M_mul. apply M_eq. vm_compute. reflexivity. }
  field. intros X. apply V_zero in X. rewrite V_M in X by exact L. discriminate X.
Qed.

Definition ii : Fp := M unit_i.

Lemma ii_spec : (ii * ii + 1 = 0)%F.
Proof.
  unfold ii. rewrite M_mul. rewrite <- (M_V 1%F), <- one_V, M_add. rewrite <- (M_V 0%F), <- zero_V. apply M_eq. vm_compute. reflexivity.
Qed.

Lemma two_spec : (1 + 1 <> 0)%F.
Proof.
  intros H. rewrite <- (M_V 1%F), <- one_V, M_add, <- (M_V 0%F), <- zero_V in H. apply M_eq in H. vm_compute in H. discriminate H.
Qed.

Definition two : Fp := (1 + 1)%F.

Lemma two_M : two = M 2.
Proof. unfold two. rewrite <- (M_V 1%F), <- one_V, M_add. reflexivity. Qed.

(** 2 has no square root *)
Lemma two_quarter : pow_ two ((p - 1) / 4) = ii.
Proof.
  unfold pow_, npow, ii. rewrite two_M. change (val p (M 2)) with (V (M 2)). rewrite V_M by (vm_compute; reflexivity).
  apply M_eq. rewrite power_i. symmetry. apply N.mod_small. vm_compute. reflexivity.
Qed.

Lemma two_half : pow_ two ((p - 1) / 2) = (0 - 1)%F.
Proof.
  assert ((p - 1) / 2 = (p - 1) / 4 * 2) as -> by (vm_compute; reflexivity). rewrite pow_mul, pow_2.
  rewrite two_quarter.
  replace (ii * ii)%F with (ii * ii + 1 - 1)%F by ring. rewrite ii_spec. reflexivity.
Qed.

Lemma one_zero_p : (1 <> 0)%F.
Proof. exact (f1_f0 p p_prime). Qed.

Lemma two_nonsquare : forall x, (x * x <> two)%F.
Proof.
  intros x H. assert (x <> 0%F) as X.
  { intros ->. apply two_spec. change (1 + 1)%F with two. rewrite <- H. ring. }
  pose proof two_half as T. rewrite <- H in T. rewrite <- (pow_2 x), <- pow_mul in T.
  assert (2 * ((p - 1) / 2) = p - 1) as E by (vm_compute; reflexivity). rewrite E, pow_fermat in T by exact X.
  apply two_spec. replace (1 + 1)%F with (1 - (0 - 1))%F by ring. rewrite <- T. ring.
Qed.

Definition d_half_root : Fp := M 30152228160694284937144285544751646460505239448795619900082871953631125353365.

Lemma d_twice : (two * (d_half_root * d_half_root) = dd)%F.
Proof. unfold dd. rewrite two_M, d_spec. unfold d_half_root. rewrite !M_mul. apply M_eq. vm_compute. reflexivity. Qed.

Lemma twice_nonsquare : forall h x, h <> 0%F -> (two * (h * h) <> x * x)%F.
Proof.
  intros h x N0 H. apply (two_nonsquare (x / h)%F). replace (x / h * (x / h))%F with (x * x / (h * h))%F by (field; exact N0).
  rewrite <- H. field. exact N0.
Qed.

Lemma d_nonsquare : forall x, (x * x <> dd)%F.
Proof.
  intros x H. rewrite <- d_twice in H. symmetry in H. revert H. apply twice_nonsquare.
  intros X. apply V_zero in X. unfold d_half_root in X. rewrite V_M in X by (vm_compute; reflexivity). discriminate X.
Qed.

Lemma V_d : V dd = d.
Proof. apply V_M. exact d_lt. Qed.

Definition fp_dec : forall a b : Fp, {a = b} + {a <> b} := f_dec p.

Definition on_ : Fp * Fp -> Prop := on Fp z1 add_ mul_ sub_ dd.
Definition sum : Fp * Fp -> Fp * Fp -> Fp * Fp := add Fp z1 add_ mul_ sub_ div_ dd.
Definition none : Fp * Fp := origin Fp z0 z1.
Definition many : positive -> Fp * Fp -> Fp * Fp := multiple Fp z1 add_ mul_ sub_ div_ dd.

Lemma on_none : on_ none.
Proof. exact (on_origin _ _ _ _ _ _ _ _ _ fp_field dd). Qed.
Lemma on_sum : forall a b, on_ a -> on_ b -> on_ (sum a b).
Proof. exact (on_add _ _ _ _ _ _ _ _ _ fp_field fp_dec dd ii two_spec d_nonsquare ii_spec). Qed.
Lemma sum_assoc : forall a b c, on_ a -> on_ b -> on_ c -> sum (sum a b) c = sum a (sum b c).
Proof. exact (add_assoc _ _ _ _ _ _ _ _ _ fp_field fp_dec dd ii two_spec d_nonsquare ii_spec). Qed.
Lemma sum_comm : forall a b, sum a b = sum b a.
Proof. exact (add_comm _ _ _ _ _ _ _ _ _ fp_field dd). Qed.
Lemma sum_none : forall a, sum a none = a.
Proof. exact (add_origin _ _ _ _ _ _ _ _ _ fp_field dd). Qed.
Lemma none_sum : forall a, sum none a = a.
Proof. intros a. rewrite sum_comm. apply sum_none. Qed.
Lemma on_many : forall k a, on_ a -> on_ (many k a).
Proof. exact (on_multiple _ _ _ _ _ _ _ _ _ fp_field fp_dec dd ii two_spec d_nonsquare ii_spec). Qed.
Lemma many_add : forall j k a, on_ a -> many (j + k) a = sum (many j a) (many k a).
Proof. exact (multiple_add _ _ _ _ _ _ _ _ _ fp_field fp_dec dd ii two_spec d_nonsquare ii_spec). Qed.
Lemma many_mul : forall j k a, on_ a -> many (j * k) a = many j (many k a).
Proof. exact (multiple_mul _ _ _ _ _ _ _ _ _ fp_field fp_dec dd ii two_spec d_nonsquare ii_spec). Qed.
Lemma many_none : forall k, many k none = none.
Proof. exact (multiple_origin _ _ _ _ _ _ _ _ _ fp_field dd). Qed.
Definition extended_p := extended _ _ _ _ _ _ _ _ _ fp_field fp_dec dd ii two_spec d_nonsquare ii_spec.

(** any number of times *)
Global Opaque M V z0 z1 add_ mul_ sub_ opp_ div_ inv_ pow_ dd.

Definition manyN (k : N) (a : Fp * Fp) : Fp * Fp := match k with 0 => none | Npos k => many k a end.

Lemma on_manyN : forall k a, on_ a -> on_ (manyN k a).
Proof. intros [|k] a H; [exact on_none|apply on_many; exact H]. Qed.

Lemma manyN_add : forall j k a, on_ a -> manyN (j + k) a = sum (manyN j a) (manyN k a).
Proof.
  intros [|j] [|k] a H; cbn [manyN N.add]; rewrite ?sum_none, ?none_sum; try reflexivity. apply many_add. exact H.
Qed.

Lemma manyN_mul : forall j k a, on_ a -> manyN (j * k) a = manyN j (manyN k a).
Proof. intros [|j] [|k] a H; cbn [manyN N.mul]; rewrite ?many_none; try reflexivity. apply many_mul. exact H. Qed.

Lemma manyN_mod : forall m k a, on_ a -> m <> 0 -> manyN m a = none -> manyN (k mod m) a = manyN k a.
Proof.
  intros m k a H Hm E. rewrite (N.div_mod k m) at 2 by exact Hm. rewrite manyN_add, N.mul_comm, manyN_mul, E by exact H.
  assert (manyN (k / m) none = none) as -> by (destruct (k / m); [reflexivity|apply many_none]). rewrite none_sum. reflexivity.
Qed.

(** ** Extended coordinates *)

Definition rep (q : Point) (a : Fp * Fp) : Prop :=
  exists z, z <> 0%F /\ q = (V (fst a * z), V (snd a * z), V z, V (fst a * snd a * z))%F.

Lemma rep_neutral : rep neutral none.
Proof.
  exists 1%F. split; [exact one_zero_p|]. unfold neutral, none, origin. cbn [fst snd].
  replace (0 * 1)%F with 0%F by ring. replace (0 * 1 * 1)%F with 0%F by ring. replace (1 * 1)%F with 1%F by ring. rewrite <- zero_V, <- one_V. reflexivity.
Qed.

Lemma mul_nonzero : forall a b, a <> 0%F -> b <> 0%F -> (a * b <> 0)%F.
Proof. intros a b A B H. apply (f_integral p p_prime) in H. destruct H; auto. Qed.

Lemma quadruple : forall a b c e a' b' c' e' : Fp, a = a' -> b = b' -> c = c' -> e = e' -> (V a, V b, V c, V e) = (V a', V b', V c', V e').
Proof. intros; subst; reflexivity. Qed.

Lemma rep_padd : forall q r a b, rep q a -> rep r b -> on_ a -> on_ b -> rep (padd q r) (sum a b).
Proof.
  intros q r (x1, y1) (x2, y2) (u & U & ->) (v & W & ->) A B. cbn [fst snd].
  unfold padd. rewrite <- V_d. repeat first [rewrite mul_V|rewrite plus_V|rewrite minus_V].
  destruct (extended_p _ _ _ _ _ _ A B U W) as (z & Z & E1 & E2 & E3 & E4). exists z. split; [exact Z|]. apply quadruple; [exact E1|exact E2|exact E3|exact E4].
Qed.

Lemma rep_times : forall k q a, rep q a -> on_ a -> rep (times k q) (many k a).
Proof.
  induction k as [k IH|k IH|]; intros q a R O; cbn [times]; [| |exact R].
  - pose proof (on_many k a O) as O'. specialize (IH q a R O).
    exact (rep_padd _ _ _ _ (rep_padd _ _ _ _ IH IH O' O') R (on_sum _ _ O' O') O).
  - pose proof (on_many k a O) as O'. specialize (IH q a R O). exact (rep_padd _ _ _ _ IH IH O' O').
Qed.

Lemma rep_scale : forall k q a, rep q a -> on_ a -> rep (scale k q) (manyN k a).
Proof. intros [|k] q a R O; [exact rep_neutral|apply rep_times; assumption]. Qed.

Lemma same_rep : forall q r a, rep q a -> rep r a -> same q r = true.
Proof.
  intros q r (x, y) (u & U & ->) (v & W & ->). unfold same. cbn [fst snd]. rewrite !mul_V.
  replace (x * u * v)%F with (x * v * u)%F by ring. replace (y * u * v)%F with (y * v * u)%F by ring. rewrite !N.eqb_refl. reflexivity.
Qed.

Lemma rep_same : forall q r a b, rep q a -> rep r b -> same q r = true -> a = b.
Proof.
  intros q r (x, y) (x', y') (u & U & ->) (v & W & ->). unfold same. cbn [fst snd]. rewrite !mul_V. intros H.
  apply andb_prop in H. destruct H as (H1 & H2). apply N.eqb_eq, V_inj in H1, H2.
  f_equal.
  - replace x with (x * u * v / (u * v))%F by (field; auto). rewrite H1. field. auto.
  - replace y with (y * u * v / (u * v))%F by (field; auto). rewrite H2. field. auto.
Qed.

(** ** Encoding *)

Definition bits (a : Fp * Fp) : N := V (snd a) + N.shiftl (N.land (V (fst a)) 1) 255.

Lemma encode_rep : forall q a, rep q a -> encode q = to_le 32 (bits a).
Proof.
  intros q (x, y) (z & Z & ->). unfold encode, bits. cbn [fst snd]. rewrite inv_V, !mul_V.
  replace (y * z * inv_ z)%F with y by (field; exact Z). replace (x * z * inv_ z)%F with x by (field; exact Z). reflexivity.
Qed.

Lemma two_V : 2 = V two.
Proof. rewrite two_M. symmetry. apply V_M. vm_compute. reflexivity. Qed.

Lemma opp_V : forall a, a <> 0%F -> V (opp_ a) = p - V a.
Proof.
  intros a H. assert (V a <> 0) as A by (intros X; apply V_zero in X; contradiction). pose proof (V_lt a) as L.
  rewrite <- (V_M (p - V a)) by lia. rewrite M_sub, M_p, M_V by lia. apply (f_equal V). ring.
Qed.

Lemma root_square : forall u v x k, (u = x * x * v)%F -> p - 1 = (4 * k + 2) * 2 -> x <> 0%F -> v <> 0%F ->
  let c := (u * (v * (v * v)) * pow_ (u * (v * (v * v) * (v * (v * (v * v))))) k)%F in
  (v * (c * c) = u \/ v * (c * c) = 0 - u)%F.
Proof.
  intros u v x k E K X Y c. set (s := (x * (v * v * (v * v)))%F).
  assert (u * (v * (v * v) * (v * (v * (v * v)))) = pow_ s 2)%F as S by (rewrite pow_2, E; unfold s; ring).
  assert (v * (c * c) = u * pow_ s (4 * k + 2))%F as ->.
  { unfold c. rewrite S. rewrite <- pow_mul.
    replace (4 * k + 2) with (2 * k + 2 * k + 2) by lia. rewrite !pow_add. generalize (pow_ s (2 * k)). intros t.
    replace (v * (u * (v * (v * v)) * t * (u * (v * (v * v)) * t)))%F with (u * (t * t * (u * (v * (v * v) * (v * (v * (v * v)))))))%F by ring.
    rewrite S. reflexivity. }
  assert (s <> 0%F) as S0 by (repeat apply mul_nonzero; assumption).
  destruct (pow_half s (4 * k + 2) K S0) as [->| ->]; [left|right]; ring.
Qed.

Lemma cancel_p : forall v a b, v <> 0%F -> (v * a = v * b)%F -> a = b.
Proof. intros v a b H E. replace a with (v * a / v)%F by (field; exact H). rewrite E. field. exact H. Qed.

Lemma root_V : forall u v x, (u = x * x * v)%F -> v <> 0%F -> exists c, root (V u) (V v) = Some (V c) /\ (c = x \/ c = opp_ x).
Proof.
  intros u v x E Y. unfold root, root_candidate. rewrite !mul_V, powN_V, !mul_V.
  set (c := (u * (v * (v * v)) * pow_ (u * (v * (v * v) * (v * (v * (v * v))))) ((p - 5) / 8))%F).
  destruct (N.eqb_spec (V (v * (c * c))%F) (V u)) as [H|H].
  - apply V_inj in H. exists c. split; [reflexivity|]. apply roots. apply (cancel_p v); [exact Y|]. rewrite H, E. ring.
  - assert (x <> 0%F) as X.
    { intros ->. apply H. apply (f_equal V). assert (u = 0%F) as U by (rewrite E; ring).
      unfold c. rewrite U. ring. }
    assert (p - 1 = (4 * ((p - 5) / 8) + 2) * 2) as K by (vm_compute; reflexivity).
    destruct (root_square u v x ((p - 5) / 8) E K X Y) as [G|G]; fold c in G; [rewrite G in H; contradiction|].
    rewrite zero_V, minus_V, G, N.eqb_refl. rewrite two_V, powN_V, two_quarter, mul_V.
    exists (c * ii)%F. split; [reflexivity|]. apply roots. apply (cancel_p v); [exact Y|].
    replace (v * (c * ii * (c * ii)))%F with ((v * (c * c)) * ((ii * ii + 1) - 1))%F by ring. rewrite G, ii_spec, E. ring.
Qed.

Lemma land_1 : forall x, N.land x 1 = x mod 2.
Proof. intros x. change 1 with (N.ones 1). apply N.land_ones. Qed.

Lemma parity_opp : forall a, a <> 0%F -> V (opp_ a) mod 2 <> V a mod 2.
Proof.
  intros a H. rewrite opp_V by exact H. pose proof (V_lt a) as L. assert (p mod 2 = 1) as P by (vm_compute; reflexivity).
  generalize dependent (V a). intros n L. generalize dependent p. intros q Q L X.
  assert (q mod 2 = ((q - n) + n) mod 2) as E by (f_equal; lia). rewrite N.add_mod, X in E by lia.
  rewrite Q in E. pose proof (N.mod_lt n 2 ltac:(lia)). assert (n mod 2 = 0 \/ n mod 2 = 1) as [Z|Z] by lia; rewrite Z in E; discriminate E.
Qed.

Lemma with_sign_V : forall y x c, c = x \/ c = opp_ x ->
  exists q, with_sign (V y) (N.land (V x) 1) (V c) = Some q /\ rep q (x, y).
Proof.
  intros y x c H. unfold with_sign. rewrite !land_1.
  assert (rep (V x, V y, 1, mul (V x) (V y)) (x, y)) as R.
  { exists 1%F. split; [exact one_zero_p|]. cbn [fst snd]. rewrite mul_V, one_V.
    apply quadruple; ring. }
  destruct (fp_dec x 0%F) as [X|X].
  - assert (c = 0%F) as ->. { destruct H as [->| ->]; [exact X|rewrite X; ring]. }
    subst x. rewrite <- zero_V in *. change (0 mod 2) with 0. cbn [N.eqb andb].
    eexists. split; [reflexivity|exact R].
  - assert (V c <> 0) as C.
    { intros Z. apply V_zero in Z. apply X. destruct H as [->| ->]; [exact Z|]. replace x with (opp_ (opp_ x)) by ring. rewrite Z. ring. }
    destruct (N.eqb_spec (V c) 0) as [Z|_]; [contradiction|]. cbn [andb]. destruct H as [->| ->].
    + rewrite N.eqb_refl. eauto.
    + destruct (N.eqb_spec (V (opp_ x) mod 2) (V x mod 2)) as [Z|_]; [destruct (parity_opp x X Z)|].
      rewrite opp_V by exact X. pose proof (V_lt x). replace (p - (p - V x)) with (V x) by lia. eauto.
Qed.

Lemma on_xy : forall x y, on_ (x, y) -> (y * y - 1 = x * x * (dd * (y * y) + 1) /\ dd * (y * y) + 1 <> 0)%F.
Proof.
  intros x y H. split; [exact (on_ratio _ _ _ _ _ _ _ _ _ fp_field dd x y H)|].
  exact (ratio_nonzero _ _ _ _ _ _ _ _ _ fp_field fp_dec dd ii d_nonsquare ii_spec y).
Qed.

Lemma minus_1 : forall a, minus (V a) 1 = V (a - 1)%F.
Proof. intros a. rewrite <- minus_V. apply f_equal. exact one_V. Qed.
Lemma plus_1 : forall a, plus (V a) 1 = V (a + 1)%F.
Proof. intros a. rewrite <- plus_V. apply f_equal. exact one_V. Qed.

Theorem decode_encode : forall a, on_ a -> exists q, decode (to_le 32 (bits a)) = Some q /\ rep q a.
Proof.
  intros (x, y) O. unfold decode. rewrite to_le_length. cbn [Nat.eqb].
  assert (from_le (to_le 32 (bits (x, y))) = bits (x, y)) as ->.
  { rewrite from_to_le. apply N.mod_small. unfold bits. cbn [fst snd]. rewrite land_1, N.shiftl_mul_pow2.
    pose proof (V_lt y) as L. pose proof p_small as S. pose proof (N.mod_lt (V x) 2 ltac:(lia)) as B.
    change (256 ^ N.of_nat 32) with (2 ^ 255 * 2). assert (V y < 2 ^ 255) as L' by (eapply N.lt_trans; eassumption).
    clear - L' B. generalize dependent (2 ^ 255). generalize dependent (V y). generalize dependent (V x mod 2). intros. nia. }
  assert (N.land (bits (x, y)) (N.ones 255) = V y /\ N.shiftr (bits (x, y)) 255 = N.land (V x) 1) as (-> & ->).
  { unfold bits. cbn [fst snd]. rewrite N.land_ones, N.shiftr_div_pow2, N.shiftl_mul_pow2. pose proof (V_lt y) as L. pose proof p_small as S.
    assert (V y < 2 ^ 255) as L' by (eapply N.lt_trans; eassumption). assert (2 ^ 255 <> 0) as Z by (vm_compute; discriminate).
    split; [rewrite N.mod_add by exact Z; apply N.mod_small; exact L'|].
    rewrite N.div_add by exact Z. rewrite N.div_small by exact L'. reflexivity. }
  unfold decode_y. pose proof (V_lt y) as L. destruct (N.leb_spec p (V y)) as [Z|_]; [lia|].
  destruct (on_xy x y O) as (E & N0). rewrite mul_V, minus_1, <- V_d, mul_V, plus_1.
  destruct (root_V _ _ x E N0) as (c & -> & H). cbn [obind]. apply with_sign_V. exact H.
Qed.

(** ** Reading public keys *)

Lemma point_xy : forall x y, rep (V x, V y, 1, mul (V x) (V y)) (x, y).
Proof. intros x y. exists 1%F. split; [exact one_zero_p|]. cbn [fst snd]. rewrite mul_V, one_V. apply quadruple; ring. Qed.

Lemma minus_0 : forall a, minus 0 (V a) = V (opp_ a).
Proof. intros a. rewrite zero_V, minus_V. apply (f_equal V). ring. Qed.

Lemma with_parity_V : forall y x c sign, c = x \/ c = opp_ x -> sign = V x mod 2 \/ x = 0%F -> rep (with_parity (V y) sign (V c)) (x, y).
Proof.
  intros y x c sign C S. unfold with_parity. rewrite land_1, minus_0. destruct (fp_dec x 0%F) as [X|X].
  - assert (c = x /\ opp_ c = x) as (-> & O). { rewrite X in *. destruct C as [->| ->]; split; ring. }
    rewrite O. destruct (V x mod 2 =? sign); apply point_xy.
  - destruct S as [->|S]; [|contradiction]. destruct C as [->| ->]; [rewrite N.eqb_refl; apply point_xy|].
    destruct (N.eqb_spec (V (opp_ x) mod 2) (V x mod 2)) as [Z|_]; [destruct (parity_opp x X Z)|].
    replace (opp_ (opp_ x)) with x by ring. apply point_xy.
Qed.

Theorem read_complete : forall bs x y, on_ (x, y) -> length bs = 32%nat -> from_le bs mod 2 ^ 255 mod p = V y ->
  from_le bs / 2 ^ 255 = V x mod 2 \/ x = 0%F -> exists q, read_point bs = Some q /\ rep q (x, y).
Proof.
  intros bs x y O L Y S. unfold read_point. rewrite L. cbn [Nat.eqb]. rewrite N.land_ones, N.shiftr_div_pow2, Y. cbv zeta.
  destruct (on_xy x y O) as (E & N0). rewrite mul_V, minus_1, <- V_d, mul_V, plus_1.
  destruct (root_V _ _ x E N0) as (c & -> & H). eexists. split; [reflexivity|]. apply with_parity_V; assumption.
Qed.

Theorem read_encode : forall a, on_ a -> exists q, read_point (to_le 32 (bits a)) = Some q /\ rep q a.
Proof.
  intros (x, y) O. pose proof (V_lt y) as L. pose proof p_small as S. assert (2 ^ 255 <> 0) as Z by (vm_compute; discriminate).
  assert (V y < 2 ^ 255) as L' by (eapply N.lt_trans; eassumption).
  assert (from_le (to_le 32 (bits (x, y))) = V y + V x mod 2 * 2 ^ 255) as E.
  { unfold bits. cbn [fst snd]. rewrite from_to_le, land_1, N.shiftl_mul_pow2. apply N.mod_small.
    pose proof (N.mod_lt (V x) 2 ltac:(lia)) as B. change (256 ^ N.of_nat 32) with (2 ^ 255 * 2).
    clear - L' B. generalize dependent (2 ^ 255). generalize dependent (V y). generalize dependent (V x mod 2). intros. nia. }
  apply read_complete; [exact O|apply to_le_length| |left].
  - rewrite E, N.mod_add, (N.mod_small (V y) (2 ^ 255)) by assumption. apply N.mod_small. exact L.
  - rewrite E, N.div_add, (N.div_small (V y)) by assumption. reflexivity.
Qed.
