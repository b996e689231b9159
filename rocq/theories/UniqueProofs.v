(** Proofs: a digest has one RSA signature, and an RSA signature is of one digest; the same
    for Ed25519, as far as it is true. *)

From Coq Require Import List Lia NArith.
From Verif Require Import Base BodyHash Domain Signature KeyRecord Crypto Verify SpecText SpecVerify SpecCause SpecRsa SpecEd
  Concrete Lib NumberProofs ConcreteProofs P25519Proofs FieldProofs EdwardsProofs Ed25519Proofs EdOrderProofs EdSignProofs EdSpecProofs OrderProofs RealProofs.
Import ListNotations.
Open Scope N_scope.

(** ** RSA *)

Lemma big_endian_unique : forall a b n, length a = length b -> big_endian a n -> big_endian b n -> a = b.
Proof.
  intros a b n L A B. apply big_endian_from in A, B. destruct A as (<- & A), B as (Eq & B).
  rewrite <- (to_from_be a A), <- (to_from_be b B), L, Eq. reflexivity.
Qed.

Lemma valid_length : forall a n e digest sig digest' sig' a', rsa_valid a n e digest sig -> rsa_valid a' n e digest' sig' -> length sig = length sig'.
Proof.
  intros a n e digest sig digest' sig' a' (s & pd & i & p1 & _ & _ & B & _ & _ & _ & -> & L & _) (s' & pd' & i' & p1' & _ & _ & B' & _ & _ & _ & -> & L' & _).
  assert (0 < length sig)%nat as P by (rewrite <- L; cbn [app length]; lia).
  assert (0 < length sig')%nat as P' by (rewrite <- L'; cbn [app length]; lia).
  rewrite pred_N in B, B' by assumption. apply Nat2N.inj. apply (size_unique n); [lia|lia|exact B|exact B'].
Qed.

Lemma padding_stop : forall x y a b, Forall (eq 255) x -> Forall (eq 255) y -> x ++ 0 :: a = y ++ 0 :: b -> x = y /\ a = b.
Proof.
  induction x as [|c x IH]; intros [|d y] a b X Y H; inversion X; inversion Y; subst; cbn [app] in H; try discriminate H.
  - injection H as H. auto.
  - injection H as H. destruct (IH y a b) as (-> & ->); auto.
Qed.

Theorem rsa_one_signature : forall a n e d digest sig sig', rsa_pair n e d -> length digest = digest_size a ->
  rsa_valid a n e digest sig -> rsa_valid a n e digest sig' -> sig = sig'.
Proof.
  intros a n e d digest sig sig' P L V V'. pose proof (valid_length _ _ _ _ _ _ _ _ V V') as Len.
  destruct V as (s & pd & i & p1 & S & Lt & B & F & _ & D & -> & Lp & Pw), V' as (s' & pd' & i' & p1' & S' & Lt' & B' & F' & _ & D' & -> & Lp' & Pw').
  apply digest_info_is in D, D'; [|exact L..]. subst i i'.
  assert (pd = pd') as <-.
  { rewrite (all_255 pd F), (all_255 pd' F'). f_equal. rewrite <- Lp, <- Lp' in Len. rewrite !app_length in Len. lia. }
  apply big_endian_from in Pw, Pw'. destruct Pw as (Pw & _), Pw' as (Pw' & _). rewrite Pw in Pw'.
  assert (s = s') as <-.
  { assert (rsa_pair n d e) as P'. { destruct P as (ps & X). exists ps. rewrite (N.mul_comm d e). exact X. }
    rewrite <- (N.mod_small s n Lt), <- (N.mod_small s' n Lt'). rewrite <- (back n d e s P'), <- (back n d e s' P'). rewrite Pw'. reflexivity. }
  apply (big_endian_unique _ _ s); assumption.
Qed.

Lemma start_unique : forall a a' x y, length x = digest_size a -> length y = digest_size a' -> info_start a ++ x = info_start a' ++ y -> a = a' /\ x = y.
Proof.
  intros [] [] x y Lx Ly H; cbn [info_start app] in H; try discriminate H; injection H as H; auto.
Qed.

Theorem rsa_one_digest : forall a a' n e digest digest' sig, length digest = digest_size a -> length digest' = digest_size a' ->
  rsa_valid a n e digest sig -> rsa_valid a' n e digest' sig -> a = a' /\ digest = digest'.
Proof.
  intros a a' n e digest digest' sig L L' V V'.
  destruct V as (s & pd & i & p1 & S & Lt & B & F & _ & D & -> & Lp & Pw), V' as (s' & pd' & i' & p1' & S' & Lt' & B' & F' & _ & D' & -> & Lp' & Pw').
  apply digest_info_is in D, D'; [|assumption..]. subst i i'. apply big_endian_from in S, S'. destruct S as (S & _), S' as (S' & _).
  assert (s' = s) as -> by congruence. apply (big_endian_unique _ _ _ (eq_trans Lp (eq_sym Lp')) Pw) in Pw'.
  cbn [app] in Pw'. injection Pw' as Pw'. apply padding_stop in Pw'; [|exact F|exact F']. destruct Pw' as (_ & H).
  apply start_unique; assumption.
Qed.

(** ** Ed25519 *)

Lemma encoding_unique : forall a b bs, ed_encoding a bs -> ed_encoding b bs -> a = b.
Proof.
  intros a b bs A B. apply decode_complete in A, B. destruct A as (q & a' & -> & A & D & R), B as (q' & b' & -> & B & D' & R').
  rewrite D in D'. injection D' as <-. apply (f_equal W). apply (rep_same q q); [exact R|exact R'|]. apply (same_rep _ _ a'); exact R.
Qed.

Lemma reading_unique : forall a b bs, ed_reading a bs -> ed_reading b bs -> a = b.
Proof.
  intros a b bs A B. apply read_found in A, B. destruct A as (q & a' & -> & A & D & R), B as (q' & b' & -> & B & D' & R').
  rewrite D in D'. injection D' as <-. apply (f_equal W). apply (rep_same q q); [exact R|exact R'|]. apply (same_rep _ _ a'); exact R.
Qed.

Lemma little_unique : forall a b n, length a = length b -> little_endian a n -> little_endian b n -> a = b.
Proof.
  intros a b n L A B. rewrite <- (rev_involutive a), <- (rev_involutive b). f_equal. apply (big_endian_unique _ _ n); [rewrite !rev_length; exact L|exact A|exact B].
Qed.

(** what validity means, with points *)
Lemma valid_points : forall public msg sig, ed_valid sha512 public msg sig ->
  exists hr low r a, sig = hr ++ low /\ length hr = 32%nat /\ length low = 32%nat /\ on_ r /\ on_ a
    /\ ed_encoding (W r) hr /\ ed_reading (W a) public /\ little_endian low (from_le low) /\ from_le low < order
    /\ manyN (from_le low) base_point = sum r (manyN (from_le (sha512 (hr ++ public ++ msg)) mod order) a).
Proof.
  intros public msg sig (hr & low & rr & a & b & s & k & x & y & -> & R & A & B & L & S & Lt & K & X & Y & Sum).
  pose proof (proj1 R) as Rc. apply curve_point in Rc. destruct Rc as (r & -> & Ro).
  pose proof (proj1 A) as Ac. apply curve_point in Ac. destruct Ac as (a' & -> & Ao).
  exists hr, low, r, a'. pose proof S as S'. apply little_from in S'. destruct S' as (<- & _). apply hash_number in K. subst k.
  rewrite ed_order_order in *. apply base_multiple in X; [|exact B]. subst x. apply multiple_point in Y; [|exact Ao]. subst y.
  apply sum_W in Sum; [|exact Ro|apply on_manyN; exact Ao].
  split; [reflexivity|]. split; [exact (proj1 (proj2 R))|]. split; [exact L|]. repeat (split; [assumption|]). exact Sum.
Qed.

Lemma points_valid : forall public msg hr low r a, length low = 32%nat -> on_ r -> on_ a ->
  ed_encoding (W r) hr -> ed_reading (W a) public -> little_endian low (from_le low) -> from_le low < order ->
  manyN (from_le low) base_point = sum r (manyN (from_le (sha512 (hr ++ public ++ msg)) mod order) a) ->
  ed_valid sha512 public msg (hr ++ low).
Proof.
  intros public msg hr low r a L Ro Ao R A S Lt Eq.
  exists hr, low, (W r), (W a), (W base_point), (from_le low), (from_le (sha512 (hr ++ public ++ msg))), (W (manyN (from_le low) base_point)),
    (W (manyN (from_le (sha512 (hr ++ public ++ msg)) mod order) a)).
  split; [reflexivity|]. split; [exact R|]. split; [exact A|]. split; [exact base_spec|]. split; [exact L|]. split; [exact S|].
  split; [rewrite ed_order_order; exact Lt|]. split; [apply hash_number; reflexivity|]. split; [apply multiple_W; exact on_base|].
  split; [rewrite ed_order_order; apply multiple_W; exact Ao|]. apply sum_W; [exact Ro|apply on_manyN; exact Ao|exact Eq].
Qed.

Lemma same_halves : forall a b c e : list byte, a ++ b = c ++ e -> length a = length c -> a = c /\ b = e.
Proof.
  intros a b c e H L. split.
  - apply (f_equal (firstn (length a))) in H. rewrite L in H at 2. rewrite !firstn_app, !Nat.sub_diag, !firstn_O, !app_nil_r, !firstn_all in H. exact H.
  - apply (f_equal (skipn (length a))) in H. rewrite L in H at 2. rewrite !skipn_app, !Nat.sub_diag, !skipn_O, !skipn_all in H. exact H.
Qed.

(** the first half determines the second one *)
Theorem ed_one_signature : forall public msg sig sig', ed_valid sha512 public msg sig -> ed_valid sha512 public msg sig' ->
  firstn 32 sig = firstn 32 sig' -> sig = sig'.
Proof.
  intros public msg sig sig' V V' H. apply valid_points in V, V'.
  destruct V as (hr & low & r & a & -> & Lh & Ll & Ro & Ao & R & A & S & Lt & Eq), V' as (hr' & low' & r' & a' & -> & Lh' & Ll' & Ro' & Ao' & R' & A' & S' & Lt' & Eq').
  destruct (firstn_32 hr low Lh) as (F & _), (firstn_32 hr' low' Lh') as (F' & _). rewrite F, F' in H. subst hr'.
  apply (f_equal (app hr)). pose proof (W_inj _ _ (encoding_unique _ _ _ R R')) as <-. pose proof (W_inj _ _ (reading_unique _ _ _ A A')) as <-.
  rewrite <- Eq in Eq'. apply base_multiples in Eq'. rewrite !N.mod_small in Eq' by assumption.
  apply (little_unique _ _ (from_le low)); [rewrite Ll, Ll'; reflexivity|exact S|rewrite <- Eq'; exact S'].
Qed.

(** the scalars of private keys are not multiples of the order *)
Lemma scalar_order : forall key s prefix, ed_expanded sha512 key s prefix -> s mod order <> 0.
Proof.
  intros key s prefix (low & h & _ & _ & _ & ->) H. apply N.mod_divide in H; [|exact order_nonzero].
  assert (N.divide order (2 ^ 254 + 8 * (h / 8 mod 2 ^ 251))) as (c & C) by exact H. clear H.
  pose proof (N.mod_lt (h / 8) (2 ^ 251)) as B. set (y := h / 8 mod 2 ^ 251) in *.
  change (2 ^ 254) with 28948022309329048855892746252171976963317496166410141009864396001978282409984 in C.
  change (2 ^ 251) with 3618502788666131106986593281521497120414687020801267626233049500247285301248 in B.
  change order with 7237005577332262213973186563042994240857116359379907606001950938285454250989 in C.
  specialize (B ltac:(discriminate)). clearbody y. clear - B C. lia.
Qed.

Lemma key_point : forall key public a, ed_public_key sha512 key public -> on_ a -> ed_reading (W a) public ->
  exists s, s mod order <> 0 /\ a = manyN s base_point.
Proof.
  intros key public a (s & prefix & b & a' & X & B & Mu & En) Ao A. exists s. split; [eapply scalar_order; exact X|].
  apply base_multiple in Mu; [|exact B]. subst a'. apply encoding_reading in En. exact (W_inj _ _ (reading_unique _ _ _ A En)).
Qed.

Lemma order_cancel : forall s j k, s mod order <> 0 -> (j * s) mod order = (k * s) mod order -> j mod order = k mod order.
Proof.
  intros s j k H X. apply (cancel order j k s order_prime); [|exact X].
  intros D. apply H. apply N.mod_divide; [exact order_nonzero|exact D].
Qed.

Lemma shift_mod : forall n x y y', n <> 0 -> (x + y) mod n = (x + y') mod n -> y mod n = y' mod n.
Proof.
  intros n x y y' N0 Eq. pose proof (N.mod_lt x n N0) as Lx.
  apply (f_equal (fun y => (y + (n - x mod n)) mod n)) in Eq. rewrite !N.add_mod_idemp_l in Eq by exact N0.
  assert (forall y, (x + y + (n - x mod n)) mod n = y mod n) as Z.
  { intros z. replace (x + z + (n - x mod n)) with (z + (x / n + 1) * n); [apply N.mod_add; exact N0|].
    pose proof (N.div_mod x n N0) as D. set (c := x mod n) in *. set (q := x / n) in *. rewrite N.mul_add_distr_r, (N.mul_comm q). clearbody c q. lia. }
  rewrite !Z in Eq. exact Eq.
Qed.

(** a signature is of one digest, up to the hash that is part of the algorithm *)
Theorem ed_same_hash : forall key public msg msg' sig k k', ed_public_key sha512 key public ->
  ed_valid sha512 public msg sig ->
  little_endian (sha512 (firstn 32 sig ++ public ++ msg)) k -> little_endian (sha512 (firstn 32 sig ++ public ++ msg')) k' ->
  (ed_valid sha512 public msg' sig <-> k mod ed_order = k' mod ed_order).
Proof.
  intros key public msg msg' sig k k' P V K K'. rewrite ed_order_order. apply valid_points in V.
  destruct V as (hr & low & r & a & -> & Lh & Ll & Ro & Ao & R & A & S & Lt & Eq). destruct (firstn_32 hr low Lh) as (F & F2). rewrite F in K, K'.
  apply hash_number in K, K'. subst k k'. destruct (key_point _ _ _ P Ao A) as (s & S0 & Ea). split.
  - intros V'. apply valid_points in V'. destruct V' as (hr' & low' & r' & a' & E' & Lh' & Ll' & Ro' & Ao' & R' & A' & S' & Lt' & Eq').
    apply same_halves in E'; [|rewrite Lh, Lh'; reflexivity]. destruct E' as (<- & <-).
    pose proof (W_inj _ _ (encoding_unique _ _ _ R R')) as <-. pose proof (W_inj _ _ (reading_unique _ _ _ A A')) as <-.
    set (k := from_le (sha512 (hr ++ public ++ msg))) in *. set (k' := from_le (sha512 (hr ++ public ++ msg'))) in *.
    rewrite Ea, <- !manyN_mul in Eq, Eq' by exact on_base.
    (* R is a multiple of the base point *)
    set (u := order - (k mod order * s) mod order).
    assert (manyN (k mod order * s + u) base_point = none) as U.
    { rewrite <- multiple_reduced. assert ((k mod order * s + u) mod order = 0) as ->; [|reflexivity].
      unfold u. rewrite <- (N.add_mod_idemp_l (k mod order * s)) by exact order_nonzero.
      pose proof (N.mod_lt (k mod order * s) order order_nonzero) as Z. set (z := (k mod order * s) mod order) in *.
      replace (z + (order - z)) with order by (clearbody z; clear - Z; lia). apply N.mod_same. exact order_nonzero. }
    assert (r = manyN (from_le low + u) base_point) as Er.
    { rewrite manyN_add, Eq by exact on_base. rewrite sum_assoc; [|exact Ro|apply on_manyN; exact on_base|apply on_manyN; exact on_base].
      rewrite <- manyN_add, U, sum_none by exact on_base. reflexivity. }
    rewrite Er, <- manyN_add in Eq, Eq' by exact on_base. rewrite Eq in Eq'. apply base_multiples in Eq'.
    set (x := from_le low + u) in *.
    assert ((k mod order * s) mod order = (k' mod order * s) mod order) as X.
    { exact (shift_mod order x _ _ order_nonzero Eq'). }
    apply order_cancel in X; [|exact S0]. rewrite !N.mod_mod in X by exact order_nonzero. exact X.
  - intros X. apply (points_valid _ _ _ _ r a); try assumption. rewrite <- X. exact Eq.
Qed.

(** ** A public key that confirms everything *)

Definition weak_public : list byte := 1 :: repeat 0 31.

Lemma weak_encoding : ed_encoding (W none) weak_public.
Proof.
  rewrite W_none. split; [split; [vm_compute; reflexivity|split; [vm_compute; reflexivity|vm_compute; reflexivity]]|]. split; [reflexivity|].
  cbn [fst snd]. assert (1 + 2 ^ 255 * (0 mod 2) = from_le weak_public) as -> by (vm_compute; reflexivity). apply from_little.
  apply all_bytes. vm_compute. reflexivity.
Qed.

Theorem weak_valid : forall msg, ed_valid sha512 weak_public msg (weak_public ++ repeat 0 32).
Proof.
  intros msg. apply (points_valid _ _ _ _ none none); [apply repeat_length|exact on_none|exact on_none|exact weak_encoding|apply encoding_reading; exact weak_encoding|apply from_little; apply all_bytes; vm_compute; reflexivity|vm_compute; reflexivity|].
  rewrite manyN_none, sum_none. assert (from_le (repeat 0 32) = 0) as -> by (vm_compute; reflexivity). reflexivity.
Qed.
