(** Proofs about the concrete cryptography: sizes, RSA. *)

From Coq Require Import String List Lia ZArith NArith.
From Verif Require Import Base Base64 BodyHash Signature Crypto Pem SpecRsa SpecText SpecHash Concrete Lib NumberProofs.
Import ListNotations.
Open Scope N_scope.

(** ** Numbers and bytes *)

Lemma fold_be : forall bs a, fold_left (fun a b => N.shiftl a 8 + b) bs a = a * 256 ^ N.of_nat (length bs) + from_be bs.
Proof.
  unfold from_be. induction bs as [|b bs IH]; intros a; [cbn [fold_left length]; change (N.of_nat 0) with 0; rewrite N.pow_0_r; lia|].
  cbn [fold_left length]. rewrite IH, (IH (N.shiftl 0 8 + b)), Nat2N.inj_succ, N.pow_succ_r', !N.shiftl_mul_pow2.
  change (2 ^ 8) with 256. lia.
Qed.

Lemma from_be_app : forall a b, from_be (a ++ b) = from_be a * 256 ^ N.of_nat (length b) + from_be b.
Proof. intros a b. unfold from_be at 1. rewrite fold_left_app. apply fold_be. Qed.

Lemma from_be_snoc : forall a b, from_be (a ++ [b]) = 256 * from_be a + b.
Proof. intros a b. rewrite from_be_app. cbn [length]. change (256 ^ N.of_nat 1) with 256. unfold from_be at 2. cbn. lia. Qed.

Lemma to_le_length : forall n x, length (to_le n x) = n.
Proof. induction n; intros x; cbn [to_le length]; [reflexivity|rewrite IHn; reflexivity]. Qed.

Lemma to_be_length : forall n x, length (to_be n x) = n.
Proof. intros. unfold to_be. rewrite rev_length. apply to_le_length. Qed.

Lemma land255 : forall x, N.land x 255 = x mod 256.
Proof. intros x. change 255 with (N.ones 8). rewrite N.land_ones. reflexivity. Qed.

Lemma to_le_bytes : forall n x, Forall is_byte (to_le n x).
Proof.
  induction n; intros x; cbn [to_le]; constructor; [|apply IHn]. rewrite land255. unfold is_byte. apply N.mod_lt. lia.
Qed.

Lemma to_be_bytes : forall n x, Forall is_byte (to_be n x).
Proof. intros. unfold to_be. apply Forall_rev. apply to_le_bytes. Qed.

Lemma to_be_succ : forall n x, to_be (S n) x = to_be n (x / 256) ++ [x mod 256].
Proof. intros n x. unfold to_be. cbn [to_le rev]. rewrite land255, N.shiftr_div_pow2. reflexivity. Qed.

Lemma from_to_be : forall n x, from_be (to_be n x) = x mod 256 ^ N.of_nat n.
Proof.
  induction n as [|n IH]; intros x.
  - cbn. rewrite N.mod_1_r. reflexivity.
  - rewrite to_be_succ, from_be_snoc, IH, Nat2N.inj_succ, N.pow_succ_r'.
    rewrite N.mod_mul_r; [lia|lia|apply N.pow_nonzero; lia].
Qed.

Lemma from_to_le : forall n x, from_le (to_le n x) = x mod 256 ^ N.of_nat n.
Proof. intros n x. unfold from_le. exact (from_to_be n x). Qed.

Lemma from_be_bound : forall bs, Forall is_byte bs -> from_be bs < 256 ^ N.of_nat (length bs).
Proof.
  induction bs as [|b bs IH] using rev_ind; intros H; [cbn; lia|]. apply Forall_app in H. destruct H as (H & Hb).
  inversion Hb; subst. unfold is_byte in *. rewrite from_be_snoc, app_length. cbn [length]. rewrite Nat.add_1_r, Nat2N.inj_succ, N.pow_succ_r'.
  specialize (IH H). lia.
Qed.

Lemma to_from_be : forall bs, Forall is_byte bs -> to_be (length bs) (from_be bs) = bs.
Proof.
  induction bs as [|b bs IH] using rev_ind; intros H; [reflexivity|]. apply Forall_app in H. destruct H as (H & Hb).
  inversion Hb; subst. unfold is_byte in *. rewrite app_length. cbn [length]. rewrite Nat.add_1_r, to_be_succ, from_be_snoc.
  rewrite (N.mul_comm 256), N.div_add_l, N.div_small, N.add_0_r by lia.
  rewrite N.add_comm, N.mod_add, N.mod_small by lia. rewrite IH by exact H. reflexivity.
Qed.

Lemma big_endian_from : forall bs n, big_endian bs n -> from_be bs = n /\ Forall is_byte bs.
Proof.
  induction 1 as [|bs n b H (IH & F) Hb]; [split; [reflexivity|constructor]|].
  rewrite from_be_snoc, IH. split; [reflexivity|]. apply Forall_app. split; [exact F|constructor; [exact Hb|constructor]].
Qed.

Lemma from_big_endian : forall bs, Forall is_byte bs -> big_endian bs (from_be bs).
Proof.
  induction bs as [|b bs IH] using rev_ind; intros H; [constructor|]. apply Forall_app in H. destruct H as (H & Hb).
  inversion Hb; subst. rewrite from_be_snoc. constructor; auto.
Qed.

(** ** Digests *)

Lemma flat_be_bytes : forall n l, Forall is_byte (flat_map (to_be n) l).
Proof. induction l; cbn [flat_map]; [constructor|]. apply Forall_app. split; [apply to_be_bytes|assumption]. Qed.

Lemma flat_be_length : forall n l, length (flat_map (to_be n) l) = (n * length l)%nat.
Proof. induction l; cbn [flat_map length]; [lia|]. rewrite app_length, to_be_length, IHl. lia. Qed.

Lemma rounds_length : forall P kw s, length s = 8%nat -> length (rounds P kw s) = 8%nat.
Proof.
  induction kw as [|(k, x) kw IH]; intros s H; [exact H|].
  do 9 (destruct s as [|? s]; try discriminate H). cbn [rounds]. apply IH. reflexivity.
Qed.

Lemma compress_length : forall P h b, length h = 8%nat -> length (compress P h b) = 8%nat.
Proof.
  intros P h b H. unfold compress. rewrite map_length, combine_length, rounds_length by exact H. rewrite H. reflexivity.
Qed.

Lemma fold_length : forall A B (f : list A -> B -> list A) n l h, (forall h b, length h = n -> length (f h b) = n) ->
  length h = n -> length (fold_left f l h) = n.
Proof. intros A B f n l. induction l; intros h Hf H; cbn [fold_left]; auto. Qed.

Lemma sha256_length : forall m, length (sha256 m) = 32%nat.
Proof.
  intros m. unfold sha256. rewrite flat_be_length, (fold_length _ _ _ 8); [reflexivity|apply compress_length|reflexivity].
Qed.

Lemma rounds1_length : forall ws t s, length s = 5%nat -> length (rounds1 t ws s) = 5%nat.
Proof.
  induction ws as [|x ws IH]; intros t s H; [exact H|].
  do 6 (destruct s as [|? s]; try discriminate H). cbn [rounds1].
  destruct (match Nat.div t 20 with
            | 0%nat => _ | 1%nat => _ | 2%nat => _ | _ => _ end) as (f, k). apply IH. reflexivity.
Qed.

Lemma sha1_length : forall m, length (sha1 m) = 20%nat.
Proof.
  intros m. unfold sha1. rewrite flat_be_length, (fold_length _ _ _ 5); [reflexivity| |reflexivity].
  intros h b H. unfold compress1. rewrite map_length, combine_length, rounds1_length by exact H. rewrite H. reflexivity.
Qed.

Definition digest_size (a : HashAlg) : nat := match a with Sha256 => 32 | Sha1 => 20 end.

Lemma digest_length : forall a m, length (hash_fn real_crypto a m) = digest_size a.
Proof. intros [] m; [apply sha256_length|apply sha1_length]. Qed.

Lemma encode_length : forall p, length (encode p) = 32%nat.
Proof. intros (((x & y) & z) & t). unfold encode. cbv zeta. apply to_le_length. Qed.

Lemma encode_bytes : forall p, Forall is_byte (encode p).
Proof. intros (((x & y) & z) & t). unfold encode. cbv zeta. apply to_le_bytes. Qed.

Lemma ed_sign_with_size : forall s prefix msg, length (ed_sign_with s prefix msg) = 64%nat /\ Forall is_byte (ed_sign_with s prefix msg).
Proof.
  intros s prefix msg. unfold ed_sign_with. cbv zeta. rewrite app_length, encode_length, to_le_length. split; [reflexivity|].
  apply Forall_app. split; [apply encode_bytes|apply to_le_bytes].
Qed.

(** ** RSA *)

Lemma rsa_sign_cases : forall a k digest sig, rsa_sign_digest a k digest = Some sig ->
  (Forall is_byte sig /\ rsa_check (rs_public k) a digest sig = true)
  \/ exists e, rs_d k = Npos e /\ emsa_fits a (rsa_bytes (rs_public k)) digest = true
       /\ sig = to_be (rsa_bytes (rs_public k))
                  (power (rk_n (rs_public k)) (from_be (emsa a (rsa_bytes (rs_public k)) digest)) e).
Proof.
  intros a k digest sig H. unfold rsa_sign_digest in H.
  destruct (find _ (rs_known k)) as [s|] eqn:F.
  - injection H as <-. apply find_some in F. destruct F as (_ & F). apply andb_prop in F. destruct F as (B & F). left.
    split; [|exact F]. rewrite forallb_forall in B. apply Forall_forall. intros b X. apply B in X. apply N.ltb_lt in X. exact X.
  - destruct (rs_d k) as [|e]; [discriminate H|]. cbv zeta in H. right. exists e.
    destruct (emsa_fits _ _ _); [|discriminate H]. injection H as <-. auto.
Qed.

Lemma rsa_check_size : forall k a digest sig, rsa_check k a digest sig = true -> length sig = rsa_bytes k /\ emsa_fits a (rsa_bytes k) digest = true.
Proof.
  intros k a digest sig H. unfold rsa_check in H. cbv zeta in H. rewrite !Bool.andb_true_iff in H. destruct H as (((H1 & H2) & _) & _).
  apply Nat.eqb_eq in H2. auto.
Qed.

Lemma rsa_sign_size : forall a k digest sig, rsa_sign_digest a k digest = Some sig ->
  length sig = rsa_bytes (rs_public k) /\ Forall is_byte sig /\ emsa_fits a (rsa_bytes (rs_public k)) digest = true.
Proof.
  intros a k digest sig H. apply rsa_sign_cases in H. destruct H as [(B & H)|(e & _ & F & ->)].
  - apply rsa_check_size in H. tauto.
  - rewrite to_be_length. split; [reflexivity|]. split; [apply to_be_bytes|exact F].
Qed.

Lemma fits_room : forall a len digest, emsa_fits a len digest = true -> length digest = digest_size a /\ (46 <= len)%nat /\ length (emsa a len digest) = len.
Proof.
  intros [] len digest H; apply andb_prop in H; destruct H as (_ & H); apply andb_prop in H; destruct H as (H1 & H2); apply Nat.eqb_eq in H1; apply Nat.leb_le in H2;
    (split; [exact H1|]; split; [lia|]); unfold emsa; rewrite !app_length, repeat_length; cbn [length]; rewrite H1; lia.
Qed.

Lemma all_bytes : forall bs, forallb (fun b => b <? 256) bs = true -> Forall is_byte bs.
Proof. intros bs B. rewrite forallb_forall in B. apply Forall_forall. intros b X. apply B in X. apply N.ltb_lt in X. exact X. Qed.

Lemma fits_bytes : forall a len digest, emsa_fits a len digest = true -> Forall is_byte digest.
Proof. intros a len digest H. apply andb_prop in H. destruct H as (H & _). apply all_bytes. exact H. Qed.

Lemma power_spec : forall m b e, m <> 0 -> power m b e = b ^ Npos e mod m.
Proof.
  intros m b e Hm. induction e as [e IH|e IH|]; cbn [power].
  - rewrite IH. replace (N.pos e~1) with (N.pos e + N.pos e + 1) by lia.
    rewrite !N.pow_add_r, N.pow_1_r. rewrite <- N.mul_mod by assumption. rewrite N.mul_mod_idemp_l by assumption. reflexivity.
  - rewrite IH. replace (N.pos e~0) with (N.pos e + N.pos e) by lia.
    rewrite N.pow_add_r, <- N.mul_mod by assumption. reflexivity.
  - rewrite N.pow_1_r. reflexivity.
Qed.

Lemma rsa_bytes_bounds : forall k, rk_n k <> 0 ->
  256 ^ (N.of_nat (rsa_bytes k) - 1) <= rk_n k < 256 ^ N.of_nat (rsa_bytes k) /\ 0 < N.of_nat (rsa_bytes k).
Proof.
  intros k H. unfold rsa_bytes. rewrite N2Nat.id. rewrite N.size_log2 by exact H.
  pose proof (N.log2_spec (rk_n k) ltac:(lia)) as (L & U). set (l := N.log2 (rk_n k)) in *.
  change 256 with (2 ^ 8). rewrite <- !N.pow_mul_r.
  pose proof (N.div_mod (N.succ l + 7) 8 ltac:(lia)) as D. pose proof (N.mod_lt (N.succ l + 7) 8 ltac:(lia)) as M.
  set (b := (N.succ l + 7) / 8) in *. split; [|lia]. split.
  - eapply N.le_trans; [|exact L]. apply N.pow_le_mono_r; lia.
  - eapply N.lt_le_trans; [exact U|]. apply N.pow_le_mono_r; lia.
Qed.

Lemma emsa_small : forall a k digest, rk_n k <> 0 -> emsa_fits a (rsa_bytes k) digest = true ->
  from_be (emsa a (rsa_bytes k) digest) < rk_n k.
Proof.
  intros a k digest H F. pose proof (fits_bytes _ _ _ F) as B. destruct (rsa_bytes_bounds k H) as ((L & _) & P). destruct (fits_room _ _ _ F) as (_ & R & Len).
  assert (X : exists r, emsa a (rsa_bytes k) digest = 0 :: r /\ Forall is_byte r).
  { unfold emsa. cbn [app]. eexists. split; [reflexivity|]. constructor; [unfold is_byte; lia|]. apply Forall_app. split.
    - clear. induction (rsa_bytes k - 3 - _)%nat; cbn; constructor; [unfold is_byte; lia|assumption].
    - constructor; [unfold is_byte; lia|]. apply Forall_app. split; [|exact B]. destruct a; repeat constructor; unfold is_byte; lia. }
  destruct X as (r & X & Br). rewrite X in Len |- *. change (0 :: r) with ([0] ++ r). rewrite from_be_app.
  cbn [length] in Len. change (from_be [0]) with 0. rewrite N.mul_0_l, N.add_0_l. pose proof (from_be_bound r Br) as U.
  replace (N.of_nat (rsa_bytes k) - 1) with (N.of_nat (length r)) in L by lia. lia.
Qed.

(** What is signed with the private key is confirmed by the public key. *)
Theorem rsa_confirms : forall k a digest sig, rsa_pair (rk_n (rs_public k)) (rk_e (rs_public k)) (rs_d k) ->
  rsa_sign_digest a k digest = Some sig -> rsa_check (rs_public k) a digest sig = true.
Proof.
  intros k a digest sig P H.
  pose proof (rsa_sign_size _ _ _ _ H) as (Len & _ & F). pose proof (fits_bytes _ _ _ F) as B.
  apply rsa_sign_cases in H. destruct H as [(_ & H)|(d & Hd & _ & ->)]; [exact H|].
  assert (N0 : rk_n (rs_public k) <> 0).
  { destruct P as (ps & -> & _ & _ & P). apply product_pos. eapply Forall_impl; [|exact P]. intros p (X & _). exact X. }
  set (pk := rs_public k) in *. unfold rsa_check. cbv zeta. rewrite F, Len, Nat.eqb_refl. cbn [andb].
  destruct (rk_e pk) as [|e] eqn:He; [destruct P as (ps & _ & _ & P & _); lia|].
  destruct (rsa_bytes_bounds pk N0) as ((_ & U) & _). pose proof (emsa_small a pk digest N0 F) as Sm.
  destruct (fits_room _ _ _ F) as (_ & _ & Le).
  set (x := from_be (emsa a (rsa_bytes pk) digest)) in *.
  rewrite from_to_be, !power_spec by exact N0.
  rewrite (N.mod_small (_ mod _) (256 ^ _)) by (eapply N.lt_trans; [apply N.mod_lt; exact N0|exact U]).
  apply andb_true_intro. split; [apply N.ltb_lt, N.mod_lt; exact N0|]. apply leqb_eq.
  rewrite (back (rk_n pk) (Npos e) (Npos d)) by (rewrite <- Hd; exact P).
  rewrite N.mod_small by exact Sm. unfold x. rewrite <- Le at 1. apply to_from_be.
  unfold emsa. apply Forall_app. split; [repeat constructor; unfold is_byte; lia|]. apply Forall_app. split.
  - clear. induction (rsa_bytes pk - 3 - _)%nat; cbn; constructor; [unfold is_byte; lia|assumption].
  - apply Forall_app. split; [repeat constructor; unfold is_byte; lia|]. apply Forall_app. split; [|exact B]. destruct a; repeat constructor; unfold is_byte; lia.
Qed.
