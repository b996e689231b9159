(** Proofs: what else an Ed25519 signature is valid for, with any public key. *)

From Coq Require Import List Lia NArith Field.
From Verif Require Import Base BodyHash Domain Signature KeyRecord Crypto Verify SpecText SpecVerify SpecCause SpecRsa SpecEd
  Concrete Lib NumberProofs ConcreteProofs P25519Proofs FieldProofs EdwardsProofs Ed25519Proofs EdOrderProofs EdSignProofs EdSpecProofs OrderProofs RealProofs UniqueProofs.
Import ListNotations.
Open Scope N_scope.

(** ** Points can be cancelled *)

Section Mirrored.
Variable F : Type.
Variables (f0 f1 : F) (fadd fmul fsub : F -> F -> F) (fopp : F -> F) (fdiv : F -> F -> F) (finv : F -> F).
Hypothesis FT : field_theory f0 f1 fadd fmul fsub fopp fdiv finv eq.
Add Field FF : FT.
Variable d : F.
Notation on' := (on F f1 fadd fmul fsub d).

Lemma mirrored_on : forall x y, on' (x, y) -> on' (fsub f0 x, y).
Proof.
  intros x y H. unfold on in *. cbn [fst snd] in *. replace (fmul (fsub f0 x) (fsub f0 x)) with (fmul x x) by ring. exact H.
Qed.

Lemma mirrored_sum : forall x y, on' (x, y) ->
  fadd f1 (fmul (fmul d (fmul (fsub f0 x) x)) (fmul y y)) <> f0 -> fsub f1 (fmul (fmul d (fmul (fsub f0 x) x)) (fmul y y)) <> f0 ->
  add F f1 fadd fmul fsub fdiv d (fsub f0 x, y) (x, y) = (f0, f1).
Proof.
  intros x y H P Q. unfold on in H. unfold add. cbn [fst snd] in *. apply f_equal2.
  - set (e := fadd f1 (fmul (fmul d (fmul (fsub f0 x) x)) (fmul y y))) in *. replace (fadd (fmul (fsub f0 x) y) (fmul x y)) with f0 by ring. clearbody e. field. exact P.
  - replace (fadd (fmul y y) (fmul (fsub f0 x) x)) with (fsub (fmul y y) (fmul x x)) by ring. rewrite H.
    replace (fadd f1 (fmul (fmul d (fmul x x)) (fmul y y))) with (fsub f1 (fmul (fmul d (fmul (fsub f0 x) x)) (fmul y y))) by ring.
    set (e := fsub f1 (fmul (fmul d (fmul (fsub f0 x) x)) (fmul y y))) in *. clearbody e. field. exact Q.
Qed.
End Mirrored.

Definition mirrored (a : Fp * Fp) : Fp * Fp := (sub_ z0 (fst a), snd a).

Lemma on_mirrored : forall a, on_ a -> on_ (mirrored a).
Proof. intros (x, y) H. exact (mirrored_on _ _ _ _ _ _ _ _ _ fp_field dd x y H). Qed.

Lemma sum_mirrored : forall a, on_ a -> sum (mirrored a) a = none.
Proof.
  intros (x, y) H. pose proof (on_mirrored _ H) as H'.
  exact (mirrored_sum _ _ _ _ _ _ _ _ _ fp_field dd x y H
    (plus_nonzero _ _ _ _ _ _ _ _ _ fp_field fp_dec dd ii two_spec d_nonsquare ii_spec _ _ _ _ H' H)
    (minus_nonzero _ _ _ _ _ _ _ _ _ fp_field fp_dec dd ii two_spec d_nonsquare ii_spec _ _ _ _ H' H)).
Qed.

Lemma sum_cancel : forall r a b, on_ r -> on_ a -> on_ b -> sum r a = sum r b -> a = b.
Proof.
  intros r a b R A B H. apply (f_equal (sum (mirrored r))) in H. pose proof (on_mirrored _ R) as R'.
  rewrite <- !sum_assoc, sum_mirrored, !none_sum in H by assumption. exact H.
Qed.

(** ** Signatures *)

Theorem ed_same_multiple : forall public a msg msg' sig k k' y, ed_reading a public -> ed_valid sha512 public msg sig ->
  little_endian (sha512 (firstn 32 sig ++ public ++ msg)) k -> little_endian (sha512 (firstn 32 sig ++ public ++ msg')) k' ->
  ed_multiple a (k mod ed_order) y ->
  (ed_valid sha512 public msg' sig <-> ed_multiple a (k' mod ed_order) y).
Proof.
  intros public a0 msg msg' sig k k' y En V K K' Y. rewrite ed_order_order in *. apply valid_points in V.
  destruct V as (hr & low & r & a & -> & Lh & Ll & Ro & Ao & R & A & S & Lt & Eq). destruct (firstn_32 hr low Lh) as (F & F2). rewrite F in K, K'.
  pose proof (reading_unique _ _ _ A En) as <-. apply hash_number in K, K'. subst k k'. apply multiple_point in Y; [|exact Ao]. subst y. split.
  - intros V'. apply valid_points in V'. destruct V' as (hr' & low' & r' & a' & E' & Lh' & Ll' & Ro' & Ao' & R' & A' & S' & Lt' & Eq').
    apply same_halves in E'; [|rewrite Lh, Lh'; reflexivity]. destruct E' as (<- & <-).
    pose proof (W_inj _ _ (encoding_unique _ _ _ R R')) as <-. pose proof (W_inj _ _ (reading_unique _ _ _ A A')) as <-.
    rewrite Eq in Eq'. apply sum_cancel in Eq'; [|exact Ro|apply on_manyN; exact Ao|apply on_manyN; exact Ao].
    rewrite Eq'. apply multiple_W. exact Ao.
  - intros Y. apply multiple_point in Y; [|exact Ao]. apply W_inj in Y. apply (points_valid _ _ _ _ r a); try assumption. rewrite <- Y. exact Eq.
Qed.
