(** Proofs: what is signed with an Ed25519 key is confirmed by its public key. *)

From Coq Require Import String List Lia ZArith NArith.
From Verif Require Import Base Crypto SpecRsa Concrete Lib NumberProofs ConcreteProofs Ed25519Proofs EdOrderProofs.
Import ListNotations.
Open Scope N_scope.

Lemma rep_multiple : forall k, rep (scale k base) (manyN k base_point).
Proof. intros k. apply rep_scale; [exact rep_base|exact on_base]. Qed.

Lemma decode_multiple : forall k, exists q, decode (encode (scale k base)) = Some q /\ rep q (manyN k base_point).
Proof.
  intros k. rewrite (encode_rep _ _ (rep_multiple k)). apply decode_encode. apply on_manyN. exact on_base.
Qed.

Lemma read_multiple : forall k, exists q, read_point (encode (scale k base)) = Some q /\ rep q (manyN k base_point).
Proof.
  intros k. rewrite (encode_rep _ _ (rep_multiple k)). apply read_encode. apply on_manyN. exact on_base.
Qed.

Lemma firstn_32 : forall a b : list byte, length a = 32%nat -> firstn 32 (a ++ b) = a /\ skipn 32 (a ++ b) = b.
Proof.
  intros a b H. rewrite <- H. rewrite firstn_app, skipn_app, Nat.sub_diag, firstn_all, skipn_all. cbn. rewrite app_nil_r. auto.
Qed.

Lemma order_nonzero : order <> 0.
Proof. vm_compute. discriminate. Qed.

Theorem ed_confirms : forall s prefix msg q, read_point (encode (scale s base)) = Some q ->
  ed25519_verify (encode (scale s base), q) msg (ed_sign_with s prefix msg) = true.
Proof.
  intros s prefix msg q D. destruct (read_multiple s) as (q' & D' & Rq). rewrite D in D'. injection D' as <-.
  unfold ed25519_verify. rewrite (proj1 (ed_sign_with_size s prefix msg)). cbn [Nat.eqb fst snd]. unfold ed_sign_with. cbv zeta.
  set (r := from_le (sha512 (prefix ++ msg)) mod order).
  set (k := from_le (sha512 (encode (scale r base) ++ encode (scale s base) ++ msg)) mod order).
  set (t := (r + k * s) mod order).
  destruct (firstn_32 (encode (scale r base)) (to_le 32 t) (encode_length _)) as (F & S).
  destruct (decode_multiple r) as (rr & Dr & Rr). rewrite F, Dr. cbn [option_map default]. unfold ed_check. rewrite F, S.
  fold k. assert (t < order) as T by (apply N.mod_lt; exact order_nonzero).
  assert (from_le (to_le 32 t) = t) as ->.
  { rewrite from_to_le. apply N.mod_small. apply N.lt_trans with order; [exact T|vm_compute; reflexivity]. }
  cbv zeta. destruct (N.ltb_spec t order) as [_|X]; [|lia].
  apply (same_rep _ _ (manyN t base_point)); [apply rep_multiple|].
  unfold t. rewrite manyN_mod; [|exact on_base|exact order_nonzero|exact base_order].
  rewrite manyN_add, manyN_mul by exact on_base.
  apply rep_padd; [exact Rr| |apply on_manyN; exact on_base|apply on_manyN; apply on_manyN; exact on_base].
  apply rep_scale; [exact Rq|apply on_manyN; exact on_base].
Qed.

(** the public key can be read *)
Lemma public_readable : forall key, exists q, ed_key (ed_public key) = Some (ed_public key, q) /\ read_point (ed_public key) = Some q.
Proof.
  intros key. unfold ed_key, ed_public. destruct (read_multiple (fst (expand key))) as (q & -> & _). exists q. auto.
Qed.

Theorem ed25519_confirms : forall key q msg, ed_key (ed_public key) = Some q -> ed25519_verify q msg (ed25519_sign key msg) = true.
Proof.
  intros key q msg H. destruct (public_readable key) as (q' & H' & D). rewrite H in H'. injection H' as ->.
  unfold ed25519_sign. apply ed_confirms. exact D.
Qed.
