(** Proofs: larger primes, by Pocklington's criterion; and multiplication with less work
    for the kernel. *)

From Coq Require Import List Lia ZArith NArith.
From Verif Require Import SpecRsa Lib NumberProofs PrimeProofs.
Import ListNotations.
Open Scope N_scope.

(** ** The criterion *)

Lemma pow_one : forall l b k c, 1 < l -> b ^ k mod l = 1 -> b ^ (c * k) mod l = 1.
Proof.
  intros l b k c Hl H. rewrite N.mul_comm, N.pow_mul_r, pow_mod, H, N.pow_1_l by lia. apply N.mod_small. exact Hl.
Qed.

Lemma factor_order : forall f l b, prime f -> prime l -> b ^ f mod l = 1 -> b mod l <> 1 -> N.divide f (l - 1).
Proof.
  intros f l b Pf Pl H Hb. pose proof (proj1 Pf) as Hf. pose proof (proj1 Pl) as Hl.
  destruct (N.eq_dec ((l - 1) mod f) 0) as [D|D]; [apply N.mod_divide; [lia|exact D]|exfalso].
  assert (N.gcd f (l - 1) = 1) as G. { apply prime_gcd; [exact Pf|]. intros X. apply N.mod_divide in X; [contradiction|lia]. }
  assert (b ^ (l - 1) mod l = 1) as Fe.
  { apply fermat; [exact Pl|]. intros (c & X). subst b. rewrite pow_mod, N.mod_mul, N.pow_0_l, N.mod_0_l in H by lia. discriminate H. }
  destruct (N.gcd_bezout f (l - 1)) as [(a & c & B)|(a & c & B)]; rewrite G in B.
  - pose proof (pow_one l b f a Hl H) as X. rewrite B, N.pow_add_r, N.pow_1_r, N.mul_mod, (pow_one l b _ c Hl Fe) in X by lia.
    rewrite N.mul_1_r, N.mod_mod in X by lia. contradiction.
  - pose proof (pow_one l b _ a Hl Fe) as X. rewrite B, N.pow_add_r, N.pow_1_r, N.mul_mod, (pow_one l b _ c Hl H) in X by lia.
    rewrite N.mul_1_r, N.mod_mod in X by lia. contradiction.
Qed.

Lemma mod_factor : forall n l x, l <> 0 -> n <> 0 -> N.divide l n -> (x mod n) mod l = x mod l.
Proof.
  intros n l x Hl Hn (c & ->). rewrite (N.div_mod x (c * l)) at 2 by exact Hn.
  replace (c * l * (x / (c * l)) + x mod (c * l)) with (x mod (c * l) + c * (x / (c * l)) * l) by lia.
  rewrite N.mod_add by exact Hl. reflexivity.
Qed.

Definition no_factor (f n : N) (js : list nat) : bool := forallb (fun j => negb (n mod (1 + f * N.of_nat j) =? 0)) js.

Theorem pocklington : forall f n b J, prime f -> 1 < n -> 1 <= b -> b ^ f mod n = 1 -> N.gcd (b - 1) n = 1 ->
  n < (1 + f * (N.of_nat J + 1)) * (1 + f * (N.of_nat J + 1)) -> no_factor f n (seq 1 J) = true -> prime n.
Proof.
  intros f n b J Pf Hn Hb H G S C. destruct (least_factor n Hn) as (l & Pl & D & [P|L]); [exact P|exfalso].
  pose proof (proj1 Pl) as Hl.
  assert (N.divide f (l - 1)) as (j & Hj).
  { apply (factor_order f l b Pf Pl).
    - rewrite <- (mod_factor n l) by (try exact D; lia). rewrite H. apply N.mod_small. exact Hl.
    - intros X. assert (N.divide l (b - 1)) as Y.
      { apply mod_eq_divide; [lia|exact Hb|]. rewrite X. apply N.mod_small. exact Hl. }
      pose proof (N.gcd_greatest _ _ _ Y D) as Z. rewrite G in Z. apply N.divide_1_r in Z. lia. }
  assert (l = 1 + f * j) as El by lia. assert (j <> 0) as J0 by (intros ->; lia).
  destruct (N.le_gt_cases j (N.of_nat J)) as [X|X].
  - unfold no_factor in C. rewrite forallb_forall in C. specialize (C (N.to_nat j)).
    rewrite N2Nat.id, <- El in C. apply N.mod_divide in D; [|lia]. rewrite D in C. discriminate C. apply in_seq. lia.
  - assert (1 + f * (N.of_nat J + 1) <= l) as Y. { rewrite El. apply N.add_le_mono_l, N.mul_le_mono_l. lia. }
    pose proof (N.mul_le_mono _ _ _ _ Y Y). lia.
Qed.

(** ** Multiplication by four bits at a time *)

Fixpoint wide (x y y3 y5 y7 y9 y11 y13 y15 : positive) : positive :=
  match x with
  | 1 => y
  | 1~0 => y~0
  | 1~1 => y3
  | 1~0~0 => y~0~0
  | 1~0~1 => y5
  | 1~1~0 => y3~0
  | 1~1~1 => y7
  | 1~0~0~0 => y~0~0~0
  | 1~0~0~1 => y9
  | 1~0~1~0 => y5~0
  | 1~0~1~1 => y11
  | 1~1~0~0 => y3~0~0
  | 1~1~0~1 => y13
  | 1~1~1~0 => y7~0
  | 1~1~1~1 => y15
  | x~0~0~0~0 => (wide x y y3 y5 y7 y9 y11 y13 y15)~0~0~0~0
  | x~0~0~0~1 => y + (wide x y y3 y5 y7 y9 y11 y13 y15)~0~0~0~0
  | x~0~0~1~0 => (y + (wide x y y3 y5 y7 y9 y11 y13 y15)~0~0~0)~0
  | x~0~0~1~1 => y3 + (wide x y y3 y5 y7 y9 y11 y13 y15)~0~0~0~0
  | x~0~1~0~0 => (y + (wide x y y3 y5 y7 y9 y11 y13 y15)~0~0)~0~0
  | x~0~1~0~1 => y5 + (wide x y y3 y5 y7 y9 y11 y13 y15)~0~0~0~0
  | x~0~1~1~0 => (y3 + (wide x y y3 y5 y7 y9 y11 y13 y15)~0~0~0)~0
  | x~0~1~1~1 => y7 + (wide x y y3 y5 y7 y9 y11 y13 y15)~0~0~0~0
  | x~1~0~0~0 => (y + (wide x y y3 y5 y7 y9 y11 y13 y15)~0)~0~0~0
  | x~1~0~0~1 => y9 + (wide x y y3 y5 y7 y9 y11 y13 y15)~0~0~0~0
  | x~1~0~1~0 => (y5 + (wide x y y3 y5 y7 y9 y11 y13 y15)~0~0~0)~0
  | x~1~0~1~1 => y11 + (wide x y y3 y5 y7 y9 y11 y13 y15)~0~0~0~0
  | x~1~1~0~0 => (y3 + (wide x y y3 y5 y7 y9 y11 y13 y15)~0~0)~0~0
  | x~1~1~0~1 => y13 + (wide x y y3 y5 y7 y9 y11 y13 y15)~0~0~0~0
  | x~1~1~1~0 => (y7 + (wide x y y3 y5 y7 y9 y11 y13 y15)~0~0~0)~0
  | x~1~1~1~1 => y15 + (wide x y y3 y5 y7 y9 y11 y13 y15)~0~0~0~0
  end%positive.

Definition fast (x y : N) : N :=
  match x, y with
  | Npos x, Npos y =>
      let y2 := y~0%positive in
      let y3 := Pos.add y y2 in
      let y5 := Pos.add y3 y2 in
      let y7 := Pos.add y5 y2 in
      let y9 := Pos.add y7 y2 in
      let y11 := Pos.add y9 y2 in
      let y13 := Pos.add y11 y2 in
      let y15 := Pos.add y13 y2 in
      Npos (wide x y y3 y5 y7 y9 y11 y13 y15)
  | _, _ => 0
  end.

Lemma wide_mul : forall y y3 y5 y7 y9 y11 y13 y15 x,
  (y3 = 3 * y -> y5 = 5 * y -> y7 = 7 * y -> y9 = 9 * y -> y11 = 11 * y -> y13 = 13 * y -> y15 = 15 * y ->
  wide x y y3 y5 y7 y9 y11 y13 y15 = x * y)%positive.
Proof.
  intros y y3 y5 y7 y9 y11 y13 y15 x H3 H5 H7 H9 H11 H13 H15. revert x. fix IH 1. intros x.
  destruct x as [x|x|]; [| |clear IH; cbn [wide]; lia].
  all: destruct x as [x|x|]; [| |clear IH; cbn [wide]; lia].
  all: destruct x as [x|x|]; [| |clear IH; cbn [wide]; lia].
  all: destruct x as [x|x|]; [| |clear IH; cbn [wide]; lia].
  all: cbn [wide]; pose proof (IH x) as R; clear IH; rewrite R; clear R; subst; lia.
Qed.

Lemma fast_mul : forall x y, fast x y = x * y.
Proof.
  intros [|x] [|y]; try reflexivity. unfold fast. cbv zeta. rewrite wide_mul by lia. reflexivity.
Qed.

(** ** Powers modulo a number *)

Section Modulo.
Variables (n : N) (reduce : N -> N).
Fixpoint fast_pow (b : N) (e : positive) : N :=
  match e with
  | xH => b
  | xO e => let x := fast_pow b e in reduce (fast x x)
  | xI e => let x := fast_pow b e in reduce (fast (reduce (fast x x)) b)
  end.

Lemma fast_pow_mod : forall b e, n <> 0 -> (forall x, reduce x mod n = x mod n) -> fast_pow b e mod n = b ^ Npos e mod n.
Proof.
  intros b e Hn reduce_mod. induction e as [e IH|e IH|]; cbn [fast_pow].
  - replace (N.pos e~1) with (N.pos e + N.pos e + 1) by lia. rewrite !N.pow_add_r, N.pow_1_r.
    rewrite reduce_mod, fast_mul, N.mul_mod, reduce_mod, fast_mul, (N.mul_mod (fast_pow b e)), IH by exact Hn.
    rewrite <- (N.mul_mod (b ^ _)), <- N.mul_mod by exact Hn. reflexivity.
  - replace (N.pos e~0) with (N.pos e + N.pos e) by lia. rewrite !N.pow_add_r.
    rewrite reduce_mod, fast_mul, N.mul_mod, IH, <- N.mul_mod by exact Hn. reflexivity.
  - rewrite N.pow_1_r. reflexivity.
Qed.
End Modulo.

(** modulus, its size, and a power of two divided by it *)
Definition reduce (n s mu x : N) : N :=
  let y := fast (N.shiftr (fast (N.shiftr x s) mu) s) n in
  if y <=? x then x - y else x.

Lemma reduce_mod : forall n s mu x, n <> 0 -> reduce n s mu x mod n = x mod n.
Proof.
  intros n s mu x Hn. unfold reduce. cbv zeta. rewrite !fast_mul. set (k := N.shiftr _ s). destruct (N.leb_spec (k * n) x) as [H|H]; [|reflexivity].
  rewrite <- (N.mod_add (x - k * n) k) by exact Hn. f_equal. lia.
Qed.

Definition certificate (f n b : N) (J : nat) : bool :=
  match f with
  | Npos e =>
      let s := N.size n in
      let m := 1 + f * (N.of_nat J + 1) in
      (1 <? n) && (1 <=? b) && (fast_pow (reduce n s (2 ^ (2 * s) / n)) b e mod n =? 1) && (N.gcd (b - 1) n =? 1)
      && (n <? m * m) && no_factor f n (seq 1 J)
  | 0 => false
  end.

Lemma certified : forall f n b J, prime f -> certificate f n b J = true -> prime n.
Proof.
  intros f n b J Pf H. unfold certificate in H. destruct f as [|f]; [discriminate H|]. cbv zeta in H. rewrite !Bool.andb_true_iff in H.
  destruct H as (((((H1 & H2) & H3) & H4) & H5) & H6). apply N.ltb_lt in H1, H5. apply N.leb_le in H2. apply N.eqb_eq in H3, H4.
  rewrite fast_pow_mod in H3 by (intros; try apply reduce_mod; lia). exact (pocklington _ _ _ _ Pf H1 H2 H3 H4 H5 H6).
Qed.
