(** Proofs: the base point of Ed25519 and its order. *)

From Coq Require Import List Lia ZArith NArith Ring Field.
From Verif Require Import Base SpecRsa Concrete Lib NumberProofs ConcreteProofs PocklingtonProofs P25519Proofs FieldProofs EdwardsProofs Ed25519Proofs.
Import ListNotations.
Open Scope N_scope.

Definition base_x : N := 15112221349535400772501151409588531511454012693041857206046113283949847762202.
Definition base_y : N := 46316835694926478169428394003475163141307993866256225615783033603165251855960.
Definition base_t : N := Eval vm_compute in base_x * base_y mod p.
Definition base_point : Fp * Fp := (M base_x, M base_y).

Lemma base_lt : base_x < p /\ base_y < p.
Proof. split; vm_compute; reflexivity. Qed.

Lemma on_base : on_ base_point.
Proof.
  unfold on_, EdwardsProofs.on, base_point. cbn [fst snd].
  assert (M base_y * M base_y = 1 + dd * (M base_x * M base_x) * (M base_y * M base_y) + M base_x * M base_x)%F as E.
  { rewrite <- (M_V 1%F), <- (M_V dd), V_d, d_spec, <- one_V. rewrite !M_mul, !M_add. apply M_eq. vm_compute. reflexivity. }
  rewrite E at 1. generalize (dd * (M base_x * M base_x) * (M base_y * M base_y))%F (M base_x * M base_x)%F. intros. ring.
Qed.

Lemma rep_base : rep base base_point.
Proof.
  destruct (decode_encode base_point on_base) as (q & D & R).
  assert (to_le 32 (bits base_point) = 88 :: repeat 102 31) as E.
  { unfold bits, base_point. cbn [fst snd]. rewrite !V_M by apply base_lt. vm_compute. reflexivity. }
  rewrite E in D. unfold base. rewrite D. exact R.
Qed.

(** ** Faster *)

Definition p_value : N := Eval vm_compute in p.
Definition ones_value : N := Eval vm_compute in N.ones 255.
Definition redq (x : N) : N :=
  let y := N.land x ones_value + 19 * N.shiftr x 255 in
  let z := N.land y ones_value + 19 * N.shiftr y 255 in
  if p_value <=? z then z - p_value else z.
Definition mulq (a b : N) : N := redq (fast a b).
Definition plusq (a b : N) : N := redq (a + b).
Definition minusq (a b : N) : N := redq (a + p_value - b).
Definition padd_with (mul plus minus : N -> N -> N) (d : N) (a b : Point) : Point :=
  let '(x1, y1, z1, t1) := a in
  let '(x2, y2, z2, t2) := b in
  let aa := mul (minus y1 x1) (minus y2 x2) in
  let bb := mul (plus y1 x1) (plus y2 x2) in
  let cc := mul (mul (plus t1 t1) d) t2 in
  let dd := mul (plus z1 z1) z2 in
  let e := minus bb aa in
  let f := minus dd cc in
  let g := plus dd cc in
  let h := plus bb aa in
  (mul e f, mul g h, mul f g, mul e h).
Definition paddq : Point -> Point -> Point := padd_with mulq plusq minusq d_value.
Fixpoint timesq (k : positive) (a : Point) : Point :=
  match k with
  | xH => a
  | xO k => let q := timesq k a in paddq q q
  | xI k => let q := timesq k a in paddq (paddq q q) a
  end.

Lemma p_value_spec : p_value = p.
Proof. vm_compute. reflexivity. Qed.
Lemma ones_value_spec : ones_value = N.ones 255.
Proof. vm_compute. reflexivity. Qed.
Lemma redq_spec : forall x, redq x = red x.
Proof. intros x. unfold redq, red. rewrite p_value_spec, ones_value_spec. reflexivity. Qed.
Lemma mulq_spec : forall a b, mulq a b = mul a b.
Proof. intros a b. unfold mulq, mul. rewrite redq_spec, fast_mul. reflexivity. Qed.
Lemma plusq_spec : forall a b, plusq a b = plus a b.
Proof. intros a b. unfold plusq, plus. apply redq_spec. Qed.
Lemma minusq_spec : forall a b, minusq a b = minus a b.
Proof. intros a b. unfold minusq, minus. rewrite p_value_spec. apply redq_spec. Qed.

Lemma padd_with_same : forall mul plus minus mul' plus' minus' d,
  (forall a b, mul a b = mul' a b) -> (forall a b, plus a b = plus' a b) -> (forall a b, minus a b = minus' a b) ->
  forall a b, padd_with mul plus minus d a b = padd_with mul' plus' minus' d a b.
Proof.
  intros mul plus minus mul' plus' minus' d H1 H2 H3 (((x1 & y1) & t1) & u1) (((x2 & y2) & t2) & u2). unfold padd_with. cbv zeta.
  rewrite !H1, !H2, !H3. reflexivity.
Qed.

Lemma paddq_spec : forall a b, paddq a b = padd a b.
Proof.
  intros a b. unfold paddq. rewrite (padd_with_same _ _ _ _ _ _ _ mulq_spec plusq_spec minusq_spec), <- d_spec. reflexivity.
Qed.

Lemma timesq_spec : forall k a, timesq k a = times k a.
Proof. induction k as [k IH|k IH|]; intros a; cbn [timesq times]; rewrite ?IH, ?paddq_spec; reflexivity. Qed.

(** ** The order *)

Definition order_positive : positive := Eval vm_compute in Z.to_pos (Z.of_N order).

Lemma order_spec : order = Npos order_positive.
Proof. vm_compute. reflexivity. Qed.

Definition is_neutral (q : Point) : bool := let '(x, y, z, _) := q in (x =? 0) && (y =? z).

Lemma times_order : is_neutral (timesq order_positive (base_x, base_y, 1, base_t)) = true.
Proof. vm_cast_no_check (eq_refl true). Qed.

Lemma rep_literal : rep (base_x, base_y, 1, base_t) base_point.
Proof.
  exists 1%F. split; [exact one_zero_p|]. unfold base_point. cbn [fst snd].
  assert (base_t = V (M base_x * M base_y)%F) as -> by (rewrite M_mul, V_M_mod; vm_compute; reflexivity).
  destruct base_lt as (X & Y). rewrite <- (V_M base_x X) at 1. rewrite <- (V_M base_y Y) at 1. rewrite one_V.
  generalize (M base_x) (M base_y). intros a b. apply quadruple; ring.
Qed.

Theorem base_order : manyN order base_point = none.
Proof.
  rewrite order_spec. cbn [manyN]. pose proof (rep_times order_positive _ _ rep_literal on_base) as R. rewrite <- timesq_spec in R.
  pose proof times_order as T. generalize dependent (timesq order_positive (base_x, base_y, 1, base_t)). intros (((x & y) & z) & t) R T.
  generalize dependent (many order_positive base_point). intros (a, b) R. destruct R as (c & C & E). injection E as -> -> -> _.
  unfold is_neutral in T. apply andb_prop in T. destruct T as (T1 & T2). apply N.eqb_eq in T1, T2. apply V_inj in T2. apply V_zero in T1. cbn [fst snd] in *.
  unfold none, origin. f_equal.
  - replace a with (a * c / c)%F by (field; exact C). rewrite T1. field. exact C.
  - replace b with (b * c / c)%F by (field; exact C). rewrite T2. field. exact C.
Qed.
