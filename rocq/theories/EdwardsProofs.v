(** Proofs: the addition of points of a twisted Edwards curve, [y^2 - x^2 = 1 + d x^2 y^2],
    is defined everywhere and associative. *)

From Coq Require Import PArith Ring Field.

Section Edwards.
Variable F : Type.
Variables (f0 f1 : F) (fadd fmul fsub : F -> F -> F) (fopp : F -> F) (fdiv : F -> F -> F) (finv : F -> F).
Hypothesis FT : field_theory f0 f1 fadd fmul fsub fopp fdiv finv eq.
Hypothesis dec : forall a b : F, {a = b} + {a <> b}.
Add Field FF : FT.
Local Infix "+" := fadd.
Local Infix "*" := fmul.
Local Infix "-" := fsub.
Local Infix "/" := fdiv.
Local Notation "0" := f0.
Local Notation "1" := f1.

Variables (d i : F).
Hypothesis two : 1 + 1 <> 0.
Hypothesis nonsquare : forall x, x * x <> d.
Hypothesis root : i * i + 1 = 0.

Lemma integral : forall a b, a * b = 0 -> a = 0 \/ b = 0.
Proof.
  intros a b H. destruct (dec a 0) as [E|E]; [left; exact E|right].
  assert (finv a * (a * b) = 0) as X by (rewrite H; ring). rewrite <- X. field. exact E.
Qed.

Lemma nonzero_mul : forall a b, a <> 0 -> b <> 0 -> a * b <> 0.
Proof. intros a b A B H. apply integral in H. tauto. Qed.

Lemma one_zero : 1 <> 0.
Proof. exact (F_1_neq_0 FT). Qed.

Lemma sub_zero : forall a b, a - b = 0 -> a = b.
Proof. intros a b H. replace a with ((a - b) + b) by ring. rewrite H. ring. Qed.

Definition Affine : Type := (F * F)%type.
Definition on (a : Affine) : Prop := snd a * snd a - fst a * fst a = 1 + d * (fst a * fst a) * (snd a * snd a).
Definition origin : Affine := (0, 1).
Definition add (a b : Affine) : Affine :=
  let '(x1, y1) := a in
  let '(x2, y2) := b in
  let e := d * (x1 * x2) * (y1 * y2) in
  ((x1 * y2 + x2 * y1) / (1 + e), (y1 * y2 + x1 * x2) / (1 - e)).

(** ** The denominators *)

Lemma no_square_times : forall x, 1 - d * (x * x) <> 0.
Proof.
  intros x H. apply sub_zero in H. destruct (dec x 0) as [->|X].
  - apply one_zero. rewrite H. ring.
  - apply (nonsquare (1 / x)). replace (1 / x * (1 / x)) with (d * (x * x) / (x * x)) by (rewrite <- H; field; exact X). field. exact X.
Qed.

(** for [e] being 1 or -1; here [x] stands for [i] times the coordinate *)
Lemma square_case : forall x1 y1 s e, e * e = 1 -> x1 <> 0 -> y1 <> 0 -> s <> 0 ->
  (x1 + e * y1) * (x1 + e * y1) = (0 - d) * ((x1 * y1) * (x1 * y1)) * (s * s) -> False.
Proof.
  intros x1 y1 s e E X Y S H. apply (nonsquare (i * (x1 + e * y1) / (x1 * y1 * s))).
  replace (i * (x1 + e * y1) / (x1 * y1 * s) * (i * (x1 + e * y1) / (x1 * y1 * s)))
    with ((i * i + 1 - 1) * ((x1 + e * y1) * (x1 + e * y1)) / ((x1 * y1 * s) * (x1 * y1 * s))) by (field; tauto).
  rewrite root, H. field. tauto.
Qed.

Lemma complete : forall a b e, on a -> on b -> e * e = 1 -> d * (fst a * fst b) * (snd a * snd b) <> e.
Proof.
  intros (u1, y1) (u2, y2) e A B E H. unfold on in A, B. cbn [fst snd] in *.
  assert (e <> 0) as E0 by (intros ->; apply one_zero; rewrite <- E; ring).
  assert (u1 <> 0 /\ y1 <> 0 /\ u2 <> 0 /\ y2 <> 0) as (U1 & Y1 & U2 & Y2).
  { repeat split; intros ->; apply E0; rewrite <- H; ring. }
  assert (i <> 0) as I0 by (intros ->; apply one_zero; rewrite <- root; ring).
  set (x1 := i * u1). set (x2 := i * u2).
  assert (x1 <> 0) as X1 by (apply nonzero_mul; assumption). assert (x2 <> 0) as X2 by (apply nonzero_mul; assumption).
  assert (i * i = 0 - 1) as I2 by (replace (i * i) with (i * i + 1 - 1) by ring; rewrite root; reflexivity).
  assert (x1 * x1 + y1 * y1 = 1 + (0 - d) * (x1 * x1) * (y1 * y1)) as A'.
  { unfold x1. replace (i * u1 * (i * u1)) with ((i * i) * (u1 * u1)) by ring. rewrite I2.
    replace ((0 - 1) * (u1 * u1) + y1 * y1) with (y1 * y1 - u1 * u1) by ring. rewrite A. ring. }
  assert (x2 * x2 + y2 * y2 = 1 + (0 - d) * (x2 * x2) * (y2 * y2)) as B'.
  { unfold x2. replace (i * u2 * (i * u2)) with ((i * i) * (u2 * u2)) by ring. rewrite I2.
    replace ((0 - 1) * (u2 * u2) + y2 * y2) with (y2 * y2 - u2 * u2) by ring. rewrite B. ring. }
  assert ((0 - d) * (x1 * x2) * (y1 * y2) = e) as H'.
  { unfold x1, x2. replace (i * u1 * (i * u2)) with ((i * i) * (u1 * u2)) by ring. rewrite I2, <- H. ring. }
  clearbody x1 x2. clear A B H U1 U2 u1 u2.
  assert ((0 - d) * ((x1 * y1) * (x1 * y1)) * (x2 * x2 + y2 * y2) = x1 * x1 + y1 * y1) as K.
  { rewrite A', B'. replace ((0 - d) * (x1 * y1 * (x1 * y1)) * (1 + (0 - d) * (x2 * x2) * (y2 * y2)))
      with ((0 - d) * (x1 * x1) * (y1 * y1) + ((0 - d) * (x1 * x2) * (y1 * y2)) * ((0 - d) * (x1 * x2) * (y1 * y2))) by ring.
    rewrite H', E. ring. }
  destruct (dec (x2 + y2) 0) as [S|S].
  - destruct (dec (x2 - y2) 0) as [D|D].
    + apply X2. assert ((1 + 1) * x2 = 0) as Z. { replace ((1 + 1) * x2) with ((x2 + y2) + (x2 - y2)) by ring. rewrite S, D. ring. }
      apply integral in Z. tauto.
    + apply (square_case x1 y1 (x2 - y2) (0 - e)); try assumption.
      * replace ((0 - e) * (0 - e)) with (e * e) by ring. exact E.
      * replace ((x1 + (0 - e) * y1) * (x1 + (0 - e) * y1)) with (x1 * x1 + (e * e) * (y1 * y1) - (1 + 1) * x1 * y1 * e) by ring.
        rewrite E. replace (1 * (y1 * y1)) with (y1 * y1) by ring. rewrite <- K, <- H'. ring.
  - apply (square_case x1 y1 (x2 + y2) e); try assumption.
    replace ((x1 + e * y1) * (x1 + e * y1)) with (x1 * x1 + (e * e) * (y1 * y1) + (1 + 1) * x1 * y1 * e) by ring.
    rewrite E. replace (1 * (y1 * y1)) with (y1 * y1) by ring. rewrite <- K, <- H'. ring.
Qed.

Lemma plus_nonzero : forall x1 y1 x2 y2, on (x1, y1) -> on (x2, y2) -> 1 + d * (x1 * x2) * (y1 * y2) <> 0.
Proof.
  intros x1 y1 x2 y2 A B H. apply (complete (x1, y1) (x2, y2) (0 - 1) A B); [ring|]. cbn [fst snd].
  replace (d * (x1 * x2) * (y1 * y2)) with ((1 + d * (x1 * x2) * (y1 * y2)) - 1) by ring. rewrite H. reflexivity.
Qed.

Lemma minus_nonzero : forall x1 y1 x2 y2, on (x1, y1) -> on (x2, y2) -> 1 - d * (x1 * x2) * (y1 * y2) <> 0.
Proof.
  intros x1 y1 x2 y2 A B H. apply (complete (x1, y1) (x2, y2) 1 A B); [ring|]. cbn [fst snd]. symmetry. apply sub_zero. exact H.
Qed.

(** ** The group *)

Lemma on_square : forall x y, on (x, y) -> y * y = (1 + x * x) / (1 - d * (x * x)).
Proof.
  intros x y H. unfold on in H. cbn [fst snd] in H. pose proof (no_square_times x) as N.
  replace (1 + x * x) with ((1 - d * (x * x)) * (y * y)); [field; exact N|].
  assert ((1 - d * (x * x)) * (y * y) - (1 + x * x) = (y * y - x * x) - (1 + d * (x * x) * (y * y))) as X by ring.
  rewrite H in X. apply sub_zero. rewrite X. ring.
Qed.

Lemma on_ratio : forall x y, on (x, y) -> y * y - 1 = x * x * (d * (y * y) + 1).
Proof.
  intros x y H. unfold on in H. cbn [fst snd] in H. replace (y * y - 1) with ((y * y - x * x) + x * x - 1) by ring. rewrite H. ring.
Qed.

Lemma ratio_nonzero : forall y, d * (y * y) + 1 <> 0.
Proof.
  intros y H. apply (no_square_times (i * y)). replace (1 - d * (i * y * (i * y))) with (d * (y * y) + 1 - d * (y * y) * (i * i + 1)) by ring.
  rewrite H, root. ring.
Qed.

Lemma on_origin : on origin.
Proof. unfold on, origin. cbn [fst snd]. ring. Qed.

Lemma on_add : forall a b, on a -> on b -> on (add a b).
Proof.
  intros (x1, y1) (x2, y2) A B. pose proof (plus_nonzero _ _ _ _ A B) as D1. pose proof (minus_nonzero _ _ _ _ A B) as D2.
  pose proof (on_square _ _ A) as S1. pose proof (on_square _ _ B) as S2.
  pose proof (no_square_times x1) as N1. pose proof (no_square_times x2) as N2. unfold on, add. cbn [fst snd].
  set (e := d * (x1 * x2) * (y1 * y2)) in *. set (nx := x1 * y2 + x2 * y1). set (ny := y1 * y2 + x1 * x2).
  assert (ny * ny * ((1 + e) * (1 + e)) - nx * nx * ((1 - e) * (1 - e)) = (1 + e) * (1 + e) * ((1 - e) * (1 - e)) + d * (nx * nx) * (ny * ny)) as X.
  { unfold e, nx, ny. clear D1 D2. clear e nx ny.
    set (r1 := (1 + x1 * x1) / (1 - d * (x1 * x1))) in *. set (r2 := (1 + x2 * x2) / (1 - d * (x2 * x2))) in *.
    ring_simplify [S1 S2]. unfold r1, r2. field. auto. }
  clearbody nx ny e.
  replace (ny / (1 - e) * (ny / (1 - e)) - nx / (1 + e) * (nx / (1 + e)))
    with ((ny * ny * ((1 + e) * (1 + e)) - nx * nx * ((1 - e) * (1 - e))) / ((1 + e) * (1 + e) * ((1 - e) * (1 - e)))) by (field; auto).
  rewrite X. field. auto.
Qed.

Lemma add_comm : forall a b, add a b = add b a.
Proof.
  intros (x1, y1) (x2, y2). unfold add. cbn zeta. f_equal.
  - replace (d * (x2 * x1) * (y2 * y1)) with (d * (x1 * x2) * (y1 * y2)) by ring. f_equal. ring.
  - replace (d * (x2 * x1) * (y2 * y1)) with (d * (x1 * x2) * (y1 * y2)) by ring. f_equal. ring.
Qed.

Lemma add_origin : forall a, add a origin = a.
Proof. intros (x, y). unfold add, origin. f_equal; field; intros H; apply one_zero; rewrite <- H; ring. Qed.

Lemma assoc_x : forall x1 y1 x2 y2 x3 y3, on (x1, y1) -> on (x2, y2) -> on (x3, y3) ->
  ((x1*y2+x2*y1)*(1-d*(x1*x2)*(y1*y2))*y3 + x3*(y1*y2+x1*x2)*(1+d*(x1*x2)*(y1*y2)))
  * ((1+d*(x2*x3)*(y2*y3))*(1-d*(x2*x3)*(y2*y3)) + d*(x2*y3+x3*y2)*(y2*y3+x2*x3)*x1*y1)
  = ((x2*y3+x3*y2)*(1-d*(x2*x3)*(y2*y3))*y1 + x1*(y2*y3+x2*x3)*(1+d*(x2*x3)*(y2*y3)))
  * ((1+d*(x1*x2)*(y1*y2))*(1-d*(x1*x2)*(y1*y2)) + d*(x1*y2+x2*y1)*(y1*y2+x1*x2)*x3*y3).
Proof.
  intros x1 y1 x2 y2 x3 y3 A B C.
  pose proof (on_square _ _ A) as S1. pose proof (on_square _ _ B) as S2. pose proof (on_square _ _ C) as S3.
  pose proof (no_square_times x1) as N1. pose proof (no_square_times x2) as N2. pose proof (no_square_times x3) as N3. clear A B C.
  set (r1 := (1 + x1 * x1) / (1 - d * (x1 * x1))) in *. set (r2 := (1 + x2 * x2) / (1 - d * (x2 * x2))) in *.
  set (r3 := (1 + x3 * x3) / (1 - d * (x3 * x3))) in *.
  ring_simplify [S1 S2 S3]. unfold r1, r2, r3. field. auto.
Qed.

Lemma assoc_y : forall x1 y1 x2 y2 x3 y3, on (x1, y1) -> on (x2, y2) -> on (x3, y3) ->
  ((y1*y2+x1*x2)*(1+d*(x1*x2)*(y1*y2))*y3 + (x1*y2+x2*y1)*(1-d*(x1*x2)*(y1*y2))*x3)
  * ((1+d*(x2*x3)*(y2*y3))*(1-d*(x2*x3)*(y2*y3)) - d*(x2*y3+x3*y2)*(y2*y3+x2*x3)*x1*y1)
  = (y1*(y2*y3+x2*x3)*(1+d*(x2*x3)*(y2*y3)) + x1*(x2*y3+x3*y2)*(1-d*(x2*x3)*(y2*y3)))
  * ((1+d*(x1*x2)*(y1*y2))*(1-d*(x1*x2)*(y1*y2)) - d*(x1*y2+x2*y1)*(y1*y2+x1*x2)*x3*y3).
Proof.
  intros x1 y1 x2 y2 x3 y3 A B C.
  pose proof (on_square _ _ A) as S1. pose proof (on_square _ _ B) as S2. pose proof (on_square _ _ C) as S3.
  pose proof (no_square_times x1) as N1. pose proof (no_square_times x2) as N2. pose proof (no_square_times x3) as N3. clear A B C.
  set (r1 := (1 + x1 * x1) / (1 - d * (x1 * x1))) in *. set (r2 := (1 + x2 * x2) / (1 - d * (x2 * x2))) in *.
  set (r3 := (1 + x3 * x3) / (1 - d * (x3 * x3))) in *.
  ring_simplify [S1 S2 S3]. unfold r1, r2, r3. field. auto.
Qed.

Lemma fraction : forall a b c e, b <> 0 -> e <> 0 -> a * e = c * b -> a / b = c / e.
Proof.
  intros a b c e B E H. replace (a / b) with ((a * e) / (b * e)) by (field; auto). rewrite H. field. auto.
Qed.

(** a sum of a sum, with one denominator *)
Lemma add_fraction : forall nx dx ny dy x y, dx <> 0 -> dy <> 0 ->
  (dx * dy + d * nx * ny * x * y <> 0 /\ dx * dy - d * nx * ny * x * y <> 0) ->
  add (nx / dx, ny / dy) (x, y)
  = ((nx * dy * y + x * ny * dx) / (dx * dy + d * nx * ny * x * y), (ny * dx * y + nx * dy * x) / (dx * dy - d * nx * ny * x * y)).
Proof.
  intros nx dx ny dy x y X Y (P & M). unfold add. f_equal.
  - apply fraction; [|exact P|field; auto]. intros H. apply P.
    replace (dx * dy + d * nx * ny * x * y) with ((dx * dy) * (1 + d * (nx / dx * x) * (ny / dy * y))) by (field; auto). rewrite H. ring.
  - apply fraction; [|exact M|field; auto]. intros H. apply M.
    replace (dx * dy - d * nx * ny * x * y) with ((dx * dy) * (1 - d * (nx / dx * x) * (ny / dy * y))) by (field; auto). rewrite H. ring.
Qed.

Lemma sum_nonzero : forall nx dx ny dy x y, dx <> 0 -> dy <> 0 -> on (nx / dx, ny / dy) -> on (x, y) ->
  dx * dy + d * nx * ny * x * y <> 0 /\ dx * dy - d * nx * ny * x * y <> 0.
Proof.
  intros nx dx ny dy x y X Y A B. split.
  - replace (dx * dy + d * nx * ny * x * y) with ((dx * dy) * (1 + d * (nx / dx * x) * (ny / dy * y))) by (field; auto).
    apply nonzero_mul; [apply nonzero_mul; assumption|]. apply plus_nonzero; assumption.
  - replace (dx * dy - d * nx * ny * x * y) with ((dx * dy) * (1 - d * (nx / dx * x) * (ny / dy * y))) by (field; auto).
    apply nonzero_mul; [apply nonzero_mul; assumption|]. apply minus_nonzero; assumption.
Qed.

Theorem add_assoc : forall a b c, on a -> on b -> on c -> add (add a b) c = add a (add b c).
Proof.
  intros (x1, y1) (x2, y2) (x3, y3) A B C. rewrite (add_comm (x1, y1) (add (x2, y2) (x3, y3))).
  pose proof (on_add _ _ A B) as AB. pose proof (on_add _ _ B C) as BC.
  change (add (x1, y1) (x2, y2)) with ((x1 * y2 + x2 * y1) / (1 + d * (x1 * x2) * (y1 * y2)), (y1 * y2 + x1 * x2) / (1 - d * (x1 * x2) * (y1 * y2))) in *.
  change (add (x2, y2) (x3, y3)) with ((x2 * y3 + x3 * y2) / (1 + d * (x2 * x3) * (y2 * y3)), (y2 * y3 + x2 * x3) / (1 - d * (x2 * x3) * (y2 * y3))) in *.
  pose proof (plus_nonzero _ _ _ _ A B) as P1. pose proof (minus_nonzero _ _ _ _ A B) as M1.
  pose proof (plus_nonzero _ _ _ _ B C) as P2. pose proof (minus_nonzero _ _ _ _ B C) as M2.
  pose proof (sum_nonzero _ _ _ _ _ _ P1 M1 AB C) as S1. pose proof (sum_nonzero _ _ _ _ _ _ P2 M2 BC A) as S2.
  rewrite !add_fraction by assumption. f_equal.
  - apply fraction; [tauto|tauto|]. exact (assoc_x _ _ _ _ _ _ A B C).
  - apply fraction; [tauto|tauto|]. etransitivity; [exact (assoc_y _ _ _ _ _ _ A B C)|]. ring.
Qed.

(** ** Extended coordinates *)

(** the formulas of RFC 8032, for points that are [(x1, y1)] and [(x2, y2)] with the
    denominators [u] and [v] *)
Lemma extended : forall x1 y1 x2 y2 u v, on (x1, y1) -> on (x2, y2) -> u <> 0 -> v <> 0 ->
  let aa := (y1 * u - x1 * u) * (y2 * v - x2 * v) in
  let bb := (y1 * u + x1 * u) * (y2 * v + x2 * v) in
  let cc := (x1 * y1 * u + x1 * y1 * u) * d * (x2 * y2 * v) in
  let dd := (u + u) * v in
  let e := bb - aa in
  let f := dd - cc in
  let g := dd + cc in
  let h := bb + aa in
  exists z, z <> 0 /\ e * f = fst (add (x1, y1) (x2, y2)) * z /\ g * h = snd (add (x1, y1) (x2, y2)) * z
    /\ f * g = z /\ e * h = fst (add (x1, y1) (x2, y2)) * snd (add (x1, y1) (x2, y2)) * z.
Proof.
  intros x1 y1 x2 y2 u v A B U W aa bb cc dd e f g h.
  pose proof (plus_nonzero _ _ _ _ A B) as N1. pose proof (minus_nonzero _ _ _ _ A B) as N2.
  unfold h, g, f, e, dd, cc, bb, aa. clear aa bb cc dd e f g h. unfold add. cbn [fst snd].
  exists (((u + u) * v - (x1 * y1 * u + x1 * y1 * u) * d * (x2 * y2 * v)) * ((u + u) * v + (x1 * y1 * u + x1 * y1 * u) * d * (x2 * y2 * v))).
  repeat split.
  - replace ((u + u) * v - (x1 * y1 * u + x1 * y1 * u) * d * (x2 * y2 * v)) with ((1 + 1) * u * v * (1 - d * (x1 * x2) * (y1 * y2))) by ring.
    replace ((u + u) * v + (x1 * y1 * u + x1 * y1 * u) * d * (x2 * y2 * v)) with ((1 + 1) * u * v * (1 + d * (x1 * x2) * (y1 * y2))) by ring.
    repeat apply nonzero_mul; assumption.
  - field. auto.
  - field. auto.
  - field. auto.
Qed.

(** ** Without fractions *)

(** for [d] being [- m / n] *)
Section Scaled.
Variables m n : F.
Hypothesis n0 : n <> 0.
Hypothesis dmn : n * d + m = 0.

Lemma scaled_d : d = (0 - m) / n.
Proof. replace (0 - m) with (n * d - (n * d + m)) by ring. rewrite dmn. field. exact n0. Qed.

Lemma cancel_n : forall v a b, v <> 0 -> v * a = v * b -> a = b.
Proof. intros v a b H E. replace a with (v * a / v) by (field; exact H). rewrite E. field. exact H. Qed.

Lemma scaled_on : forall x y, on (x, y) <-> n * (y * y) + m * (x * x * (y * y)) = n + n * (x * x).
Proof.
  intros x y. unfold on. cbn [fst snd]. split; intros H.
  - replace (n * (y * y)) with (n * (y * y - x * x) + n * (x * x)) by ring. rewrite H.
    replace (n * (1 + d * (x * x) * (y * y)) + n * (x * x) + m * (x * x * (y * y))) with (n + n * (x * x) + (n * d + m) * (x * x * (y * y))) by ring.
    rewrite dmn. ring.
  - apply (cancel_n n); [exact n0|].
    replace (n * (y * y - x * x)) with (n * (y * y) + m * (x * x * (y * y)) - (n * d + m) * (x * x * (y * y)) - n * (x * x) + n * d * (x * x * (y * y))) by ring.
    rewrite dmn, H. ring.
Qed.

Lemma scaled_sum : forall x1 y1 x2 y2 x3 y3, on (x1, y1) -> on (x2, y2) ->
  ((x3, y3) = add (x1, y1) (x2, y2)
   <-> n * x3 = n * (x1 * y2 + x2 * y1) + m * (x1 * x2 * (y1 * y2) * x3)
       /\ y3 * (n + m * (x1 * x2 * (y1 * y2))) = n * (y1 * y2 + x1 * x2)).
Proof.
  intros x1 y1 x2 y2 x3 y3 A B. pose proof (plus_nonzero _ _ _ _ A B) as N1. pose proof (minus_nonzero _ _ _ _ A B) as N2.
  unfold add. set (e := x1 * x2 * (y1 * y2)). replace (d * (x1 * x2) * (y1 * y2)) with (d * e) in * by (unfold e; ring).
  set (nx := x1 * y2 + x2 * y1). set (ny := y1 * y2 + x1 * x2). clearbody e nx ny. clear A B x1 y1 x2 y2.
  split.
  - intros H. injection H as -> ->. split.
    + apply sub_zero. replace (n * (nx / (1 + d * e)) - (n * nx + m * (e * (nx / (1 + d * e))))) with (0 - (n * d + m) * (e * (nx / (1 + d * e)))) by (field; exact N1).
      rewrite dmn. ring.
    + replace (ny / (1 - d * e) * (n + m * e)) with (n * ny + (n * d + m) * (e * ny / (1 - d * e))) by (field; exact N2). rewrite dmn. ring.
  - intros (H1 & H2). f_equal.
    + apply (cancel_n (n * (1 + d * e))); [apply nonzero_mul; assumption|].
      replace (n * (1 + d * e) * (nx / (1 + d * e))) with (n * nx) by (field; exact N1).
      replace (n * (1 + d * e) * x3) with (n * x3 + (n * d + m) * (e * x3) - m * (e * x3)) by ring. rewrite H1, dmn. ring.
    + apply (cancel_n (n * (1 - d * e))); [apply nonzero_mul; assumption|].
      replace (n * (1 - d * e) * (ny / (1 - d * e))) with (n * ny) by (field; exact N2).
      replace (n * (1 - d * e) * y3) with (y3 * (n + m * e) - (n * d + m) * (e * y3)) by ring. rewrite H2, dmn. ring.
Qed.
End Scaled.

(** ** Multiples *)

Fixpoint multiple (k : positive) (a : Affine) : Affine :=
  match k with
  | xH => a
  | xO k => let q := multiple k a in add q q
  | xI k => let q := multiple k a in add (add q q) a
  end.

Lemma on_multiple : forall k a, on a -> on (multiple k a).
Proof. induction k; intros a H; cbn [multiple]; auto using on_add. Qed.

Lemma multiple_succ : forall k a, on a -> multiple (Pos.succ k) a = add (multiple k a) a.
Proof.
  induction k as [k IH|k IH|]; intros a H; cbn [Pos.succ multiple]; [|reflexivity|reflexivity].
  rewrite IH by exact H. pose proof (on_multiple k a H) as O. set (q := multiple k a) in *.
  rewrite !add_assoc by auto using on_add. f_equal. rewrite <- !add_assoc by auto using on_add. f_equal. apply add_comm.
Qed.

Lemma multiple_add : forall j k a, on a -> multiple (j + k) a = add (multiple j a) (multiple k a).
Proof.
  intros j k a H. induction j as [|j IH] using Pos.peano_ind.
  - rewrite Pos.add_1_l, multiple_succ by exact H. apply add_comm.
  - rewrite Pos.add_succ_l, !multiple_succ, IH by exact H. pose proof (on_multiple j a H). pose proof (on_multiple k a H).
    rewrite !add_assoc by auto using on_add. f_equal. apply add_comm.
Qed.

Lemma multiple_mul : forall j k a, on a -> multiple (j * k) a = multiple j (multiple k a).
Proof.
  intros j k a H. induction j as [|j IH] using Pos.peano_ind; [reflexivity|].
  rewrite Pos.mul_succ_l, multiple_succ, multiple_add, IH by auto using on_multiple. apply add_comm.
Qed.

Lemma multiple_origin : forall k, multiple k origin = origin.
Proof. induction k as [k IH|k IH|]; cbn [multiple]; rewrite ?IH, ?add_origin; reflexivity. Qed.
End Edwards.
