(** Proofs: with the cryptography of Concrete.v, what is a success (SpecReal.v). *)

From Coq Require Import String List Permutation Lia ZArith NArith.
From Verif Require Import Base Utf8 Base64 Canon BodyHash Header TagList Domain Signature KeyRecord Crypto Format Sign Verify Pem Programs
  SpecText SpecCanon SpecHash SpecHeader SpecTag SpecDomain SpecSig SpecRecord SpecFormat SpecSign SpecOutput SpecVerify SpecEnd SpecDkim SpecCause
  SpecPrograms SpecRsa SpecEd SpecReal Concrete Lib Base64Proofs NumberProofs ConcreteProofs RsaProofs EdSpecProofs EdEndProofs HeaderCanonProofs SignProofs EndProofs HeaderProofs VerifyFacts DkimProofs.
Import ListNotations.
Open Scope N_scope.

(** ** DER *)

Lemma size_found : forall bs n rest, Forall is_byte bs -> der_size bs = Some (n, rest) ->
  exists a, bs = a ++ rest /\ forall tag c, N.of_nat (length c) = n -> der_element tag c (tag :: a ++ c).
Proof.
  intros [|l bs] n rest F H; [discriminate H|]. cbn [der_size] in H. destruct (N.ltb_spec l 128) as [L|L].
  - injection H as <- <-. exists [l]. split; [reflexivity|]. intros tag c <-. apply de_short. lia.
  - cbv zeta in H. set (k := N.to_nat (l - 128)) in *.
    destruct ((l <? 255) && Nat.leb k (length bs) && (128 <=? from_be (firstn k bs)) && negb (hd 0 bs =? 0)) eqn:X; [|discriminate H].
    injection H as <- <-. rewrite !Bool.andb_true_iff, N.ltb_lt, Nat.leb_le, N.leb_le, Bool.negb_true_iff, N.eqb_neq in X.
    destruct X as (((X1 & X2) & X3) & X4). exists (l :: firstn k bs).
    assert (length (firstn k bs) = k) as Len by (apply firstn_length_le; exact X2).
    split; [cbn [app]; rewrite firstn_skipn; reflexivity|]. intros tag c Hc.
    inversion F as [|? ? _ Fb]; subst. cbn [app].
    replace l with (128 + N.of_nat (length (firstn k bs))) by (rewrite Len; unfold k; lia).
    apply de_long; [lia| | |rewrite Len; unfold k; lia].
    + rewrite Hc. apply from_big_endian. apply Forall_forall. intros b Hb. rewrite Forall_forall in Fb. apply Fb. rewrite <- (firstn_skipn k bs). apply in_app_iff. auto.
    + destruct k as [|k]; [cbn [firstn] in X3; change (from_be []) with 0 in X3; lia|]. destruct bs; [contradiction|exact X4].
Qed.

Lemma der_found : forall tag bs c rest, Forall is_byte bs -> der tag bs = Some (c, rest) ->
  exists a, bs = a ++ rest /\ der_element tag c a.
Proof.
  intros tag [|t bs] c rest F H; [discriminate H|]. cbn [der] in H. destruct (N.eqb_spec t tag) as [->|]; [|discriminate H].
  destruct (der_size bs) as [(n & bs')|] eqn:S; [|discriminate H]. inversion F as [|? ? _ Fb]; subst.
  destruct (size_found _ _ _ Fb S) as (a & -> & A). destruct (N.ltb_spec (N.of_nat (length bs')) n) as [|L]; [discriminate H|].
  injection H as <- <-. exists (tag :: a ++ firstn (N.to_nat n) bs'). split.
  - cbn [app]. rewrite <- app_assoc, firstn_skipn. reflexivity.
  - apply A. rewrite firstn_length_le; lia.
Qed.

Lemma der_found_all : forall tag bs c, Forall is_byte bs -> der tag bs = Some (c, []) -> der_element tag c bs.
Proof. intros tag bs c F H. destruct (der_found _ _ _ _ F H) as (a & -> & A). rewrite app_nil_r. exact A. Qed.

Lemma content_bytes : forall tag c bs, der_element tag c bs -> Forall is_byte bs -> Forall is_byte c.
Proof.
  intros tag c bs [H|l H B L1 L2] F; inversion F as [|? ? _ F1]; subst; inversion F1 as [|? ? _ F2]; subst; [exact F2|].
  apply Forall_app in F2. apply F2.
Qed.

Lemma integer_found : forall bs n rest, Forall is_byte bs -> der_int bs = Some (n, rest) ->
  exists a, bs = a ++ rest /\ der_integer n a.
Proof.
  intros bs n rest F H. unfold der_int in H. destruct (der 2 bs) as [(c & r)|] eqn:D; [|discriminate H].
  destruct (whole c) eqn:W; [|discriminate H]. injection H as <- <-. destruct (der_found _ _ _ _ F D) as (a & -> & A).
  exists a. split; [reflexivity|]. apply whole_spec in W. exists c. split; [|tauto]. apply from_big_endian.
  apply Forall_app in F. eapply content_bytes; [exact A|apply F].
Qed.

Lemma spki_found : forall alg bs key, Forall is_byte bs -> spki alg bs = Some key ->
  exists a b, der_element 48 alg a /\ der_element 3 (0 :: key) b /\ der_element 48 (a ++ b) bs.
Proof.
  intros alg bs key F H. unfold spki in H. destruct (der 48 bs) as [(c & [|])|] eqn:D; try discriminate H.
  pose proof (der_found_all _ _ _ F D) as E. pose proof (content_bytes _ _ _ E F) as Fc.
  destruct (der 48 c) as [(a & r)|] eqn:D1; [|discriminate H]. destruct (der_found _ _ _ _ Fc D1) as (x & -> & A).
  destruct (leqb a alg) eqn:L; [|discriminate H]. apply leqb_eq in L. subst a.
  apply Forall_app in Fc. destruct Fc as (_ & Fr).
  destruct (der 3 r) as [([|[|?] key'] & [|])|] eqn:D2; try discriminate H. assert (key' = key) as -> by congruence.
  exists x, r. split; [exact A|]. split; [apply (der_found_all _ _ _ Fr D2)|exact E].
Qed.

Lemma pkcs1_found : forall bs k, Forall is_byte bs -> rsa_pkcs1 bs = Some k ->
  exists n e, k = mkRsaKey n e /\ rsa_public_der n e bs /\ rsa_accepted n e.
Proof.
  intros bs k F H. unfold rsa_pkcs1 in H. destruct (der 48 bs) as [(c & [|])|] eqn:D; try discriminate H.
  pose proof (der_found_all _ _ _ F D) as E. pose proof (content_bytes _ _ _ E F) as Fc.
  destruct (der_int c) as [(n & r)|] eqn:D1; [|discriminate H]. destruct (integer_found _ _ _ Fc D1) as (a & -> & A).
  apply Forall_app in Fc. destruct Fc as (_ & Fr).
  destruct (der_int r) as [(e & [|])|] eqn:D2; try discriminate H. destruct (integer_found _ _ _ Fr D2) as (b & -> & B).
  destruct (rsa_limits n e) eqn:L; [|discriminate H]. injection H as <-. apply limits_spec in L. rewrite app_nil_r in E.
  exists n, e. split; [reflexivity|]. split; [exists a, b; auto|exact L].
Qed.

Lemma spki_key_found : forall bs k, Forall is_byte bs -> rsa_spki bs = Some k ->
  exists n e, k = mkRsaKey n e /\ rsa_info_der n e bs /\ rsa_accepted n e.
Proof.
  intros bs k F H. unfold rsa_spki in H. destruct (spki _ bs) as [key|] eqn:S; [|discriminate H].
  destruct (spki_found _ _ _ F S) as (a & b & A & B & D).
  assert (Forall is_byte key) as Fk.
  { apply content_bytes in D; [|exact F]. apply Forall_app in D. destruct D as (_ & D). apply content_bytes in B; [|exact D]. inversion B; assumption. }
  destruct (pkcs1_found _ _ Fk H) as (n & e & -> & P & L). exists n, e. split; [reflexivity|]. split; [|exact L]. exists key, a, b. auto.
Qed.

(** ** RSA *)

Lemma short_element : forall tag c bs, (length c < 128)%nat -> (der_element tag c bs <-> bs = tag :: N.of_nat (length c) :: c).
Proof. intros tag c bs L. split; [intros [H|l H]; [reflexivity|lia]|intros ->; apply de_short; exact L]. Qed.

Definition info_start (a : HashAlg) : list byte :=
  match a with
  | Sha256 => [48; 49; 48; 13; 6; 9; 96; 134; 72; 1; 101; 3; 4; 2; 1; 5; 0; 4; 32]
  | Sha1 => [48; 33; 48; 9; 6; 5; 43; 14; 3; 2; 26; 5; 0; 4; 20]
  end.

Lemma digest_info_is : forall a digest bs, length digest = digest_size a -> (digest_info a digest bs <-> bs = info_start a ++ digest).
Proof.
  intros a digest bs L. split.
  - intros (x & o & X & O & D). apply short_element in X; [|destruct a; cbn; lia]. apply short_element in O; [|rewrite L; destruct a; cbn; lia].
    subst x o. apply short_element in D; [|rewrite app_length; cbn [length]; rewrite L; destruct a; cbn; lia].
    rewrite D. destruct a; cbn [app length]; rewrite L; reflexivity.
  - intros ->. destruct a; cbn [digest_size] in L.
    + eexists _, _. split; [apply short_element; [cbn; lia|reflexivity]|]. split; [apply short_element; [lia|reflexivity]|].
      apply short_element; cbn [app length]; rewrite L; [lia|reflexivity].
    + eexists _, _. split; [apply short_element; [cbn; lia|reflexivity]|]. split; [apply short_element; [lia|reflexivity]|].
      apply short_element; cbn [app length]; rewrite L; [lia|reflexivity].
Qed.

Lemma all_255 : forall l, Forall (eq 255) l -> l = repeat 255 (length l).
Proof. induction 1 as [|x l <- _ IH]; [reflexivity|]. cbn [length repeat]. rewrite <- IH. reflexivity. Qed.

Lemma repeat_255 : forall n, Forall (eq 255) (repeat 255 n).
Proof. induction n; cbn [repeat]; constructor; auto. Qed.

Lemma size_unique : forall n a b, 0 < a -> 0 < b -> 256 ^ (a - 1) <= n < 256 ^ a -> 256 ^ (b - 1) <= n < 256 ^ b -> a = b.
Proof.
  assert (forall n a b, 0 < b -> 256 ^ (a - 1) <= n < 256 ^ a -> 256 ^ (b - 1) <= n < 256 ^ b -> ~ a < b) as X.
  { intros n a b P (_ & U) (L & _) H. assert (256 ^ a <= 256 ^ (b - 1)) by (apply N.pow_le_mono_r; lia). lia. }
  intros n a b P Q A B. pose proof (X n a b Q A B). pose proof (X n b a P B A). lia.
Qed.

Lemma pred_N : forall n, (0 < n)%nat -> N.of_nat (pred n) = N.of_nat n - 1.
Proof. intros n H. lia. Qed.

Theorem rsa_check_spec : forall k a digest sig, rk_n k <> 0 -> rk_e k <> 0 -> length digest = digest_size a -> Forall is_byte digest -> Forall is_byte sig ->
  (rsa_check k a digest sig = true <-> rsa_valid a (rk_n k) (rk_e k) digest sig).
Proof.
  intros k a digest sig N0 E0 L Bd Bs. destruct (rsa_bytes_bounds k N0) as (U & P). unfold rsa_check. cbv zeta.
  rewrite !Bool.andb_true_iff, Nat.eqb_eq, N.ltb_lt. destruct (rk_e k) as [|e] eqn:Ke; [contradiction|]. rewrite leqb_eq, power_spec by exact N0.
  assert (forall len, emsa_fits a len digest = true <-> (11 + length (info_start a ++ digest) <= len)%nat) as Fits.
  { intros len. unfold emsa_fits. replace (forallb (fun b => b <? 256) digest) with true.
    2: { symmetry. apply forallb_forall. intros b Hb. rewrite Forall_forall in Bd. apply N.ltb_lt. apply Bd. exact Hb. }
    rewrite app_length, L. destruct a; cbn [andb digest_size info_start length] in *; rewrite Bool.andb_true_iff, Nat.eqb_eq, Nat.leb_le; lia. }
  assert (forall len, emsa a len digest = [0; 1] ++ repeat 255 (len - 3 - length (info_start a ++ digest)) ++ [0] ++ (info_start a ++ digest)) as Em.
  { intros len. destruct a; reflexivity. }
  rewrite Fits. split.
  - intros (((F & Ls) & Lt) & Eq). exists (from_be sig), (repeat 255 (rsa_bytes k - 3 - length (info_start a ++ digest))), (info_start a ++ digest), (emsa a (rsa_bytes k) digest).
    split; [apply from_big_endian; exact Bs|]. split; [exact Lt|]. rewrite Ls, pred_N by lia. split; [exact U|].
    split; [apply repeat_255|]. split; [rewrite repeat_length; lia|]. split; [apply digest_info_is; [exact L|reflexivity]|].
    split; [apply Em|]. rewrite <- Eq. split; [apply to_be_length|].
    pose proof (from_big_endian (to_be (rsa_bytes k) (from_be sig ^ N.pos e mod rk_n k)) (to_be_bytes _ _)) as X.
    rewrite from_to_be, (N.mod_small (_ mod _) (256 ^ _)) in X by (eapply N.lt_trans; [apply N.mod_lt; exact N0|apply U]). exact X.
  - intros (s & padding & info & padded & S & Lt & B & Pa & Pl & D & -> & Len & V). apply big_endian_from in S. destruct S as (<- & _).
    apply digest_info_is in D; [|exact L]. subst info. assert (0 < length sig)%nat as Ps by (rewrite <- Len; cbn [app length]; lia).
    rewrite pred_N in B by exact Ps.
    assert (length sig = rsa_bytes k) as Ls. { apply Nat2N.inj. apply (size_unique (rk_n k)); [lia|exact P|exact B|exact U]. }
    assert (length padding + 3 + length (info_start a ++ digest) = rsa_bytes k)%nat as Tot by (rewrite <- Ls, <- Len; rewrite !app_length; cbn [length]; lia).
    split; [split; [split; [lia|exact Ls]|exact Lt]|]. rewrite Em.
    replace (rsa_bytes k - 3 - length (info_start a ++ digest))%nat with (length padding) by lia. rewrite <- all_255 by exact Pa.
    apply big_endian_from in V. destruct V as (V & Vb). rewrite <- V, <- Ls, <- Len. apply to_from_be. exact Vb.
Qed.

Lemma size_spec : forall k least, rk_n k <> 0 ->
  (least <= N.of_nat (rsa_bytes k) * 8 <-> exists bits, bits_in_bytes (rk_n k) bits /\ least <= bits).
Proof.
  intros k least N0. destruct (rsa_bytes_bounds k N0) as (U & P). split.
  - intros H. exists (N.of_nat (rsa_bytes k) * 8). split; [|exact H]. exists (N.of_nat (rsa_bytes k) - 1).
    replace (N.of_nat (rsa_bytes k) - 1 + 1) with (N.of_nat (rsa_bytes k)) by lia. split; [exact U|lia].
  - intros (bits & (len & B & ->) & H). assert (len + 1 = N.of_nat (rsa_bytes k)) as <-; [|lia].
    apply (size_unique (rk_n k)); [lia|exact P| |exact U]. replace (len + 1 - 1) with len by lia. exact B.
Qed.

Lemma accepted_nonzero : forall n e, rsa_accepted n e -> n <> 0 /\ e <> 0.
Proof. intros n e (_ & _ & _ & H & H'). clear - H H'. lia. Qed.

Section Real.
Variables (pre : bool) (m : N) (idna : Idna).
Notation E := (real_env pre m idna).

Lemma rsa_key_in : forall data k, Forall is_byte data ->
  (key_in E Rsa data (VkRsa (C := real_crypto) k)
   <-> (rsa_info_der (rk_n k) (rk_e k) data \/ rsa_public_der (rk_n k) (rk_e k) data) /\ rsa_accepted (rk_n k) (rk_e k)).
Proof.
  intros data k F. split.
  - intros H. inversion H as [d' k' X|d' k' _ X|d' k' X|d' k' _ X]; subst.
    + destruct (spki_key_found _ _ F X) as (n & e & -> & A & B). cbn [rk_n rk_e]. auto.
    + destruct (pkcs1_found _ _ F X) as (n & e & -> & A & B). cbn [rk_n rk_e]. auto.
  - intros (D & A). destruct k as [n e]. cbn [rk_n rk_e] in *. apply rsa_in_record; auto.
Qed.

Lemma ed_spki_found : forall data public, Forall is_byte data -> spki [6; 3; 43; 101; 112] data = Some public -> ed_info_der public data.
Proof. intros data public F H. apply spki_found in H; [|exact F]. exact H. Qed.

Lemma ed_info_bytes : forall public data, ed_info_der public data -> Forall is_byte data -> Forall is_byte public.
Proof.
  intros public data (a & b & A & B & D) F. apply content_bytes in D; [|exact F]. apply Forall_app in D. destruct D as (_ & D).
  apply content_bytes in B; [|exact D]. inversion B; assumption.
Qed.

Lemma ed_key_in : forall data q, Forall is_byte data ->
  (key_in E Ed25519 data (VkEd25519 (C := real_crypto) q)
   <-> exists public, (data = public \/ ed_info_der public data) /\ ed_key public = Some q).
Proof.
  intros data q F. split.
  - intros H. inversion H as [d' k' X|d' k' _ X|d' k' X|d' k' _ X]; subst.
    + exists data. auto.
    + cbn [ed_from_spki env_crypto real_env real_crypto] in X. destruct (spki [6; 3; 43; 101; 112] data) as [public|] eqn:S; [|discriminate X].
      exists public. split; [right; apply ed_spki_found; assumption|exact X].
  - intros (public & D & K). apply (ed_in_record pre m idna _ public); [reflexivity|exact K| |exact D].
    unfold ed_key, read_point in K. destruct (Nat.eqb_spec (length public) 32) as [L|]; [exact L|discriminate K].
Qed.

Lemma ed_key_readable : forall data, Forall is_byte data ->
  ((exists q, key_in E Ed25519 data (VkEd25519 (C := real_crypto) q))
   <-> exists public a, (data = public \/ ed_info_der public data) /\ ed_reading a public).
Proof.
  intros data F. assert (forall public, data = public \/ ed_info_der public data -> Forall is_byte public) as B.
  { intros public [<-|D]; [exact F|eapply ed_info_bytes; eassumption]. }
  split.
  - intros (q & H). apply ed_key_in in H; [|exact F]. destruct H as (public & D & K).
    destruct (proj1 (key_readable public (B _ D)) (ex_intro _ q K)) as (a & A). exists public, a. auto.
  - intros (public & a & D & A). destruct (proj2 (key_readable public (B _ D)) (ex_intro _ a A)) as (q & K).
    exists q. apply ed_key_in; [exact F|]. exists public. auto.
Qed.

(** The key found in a record is long enough and confirms the signature. *)
Theorem confirmed_spec : forall least a kt data digest sig, Forall is_byte data -> Forall is_byte sig -> Forall is_byte digest -> length digest = digest_size a ->
  ((exists key, key_in E kt data key /\ (forall pk, key = VkRsa pk -> least <= rsa_size real_crypto pk * 8) /\ verifies E key a digest sig)
   <-> key_confirms sha512 least a digest sig kt data).
Proof.
  intros least a kt data digest sig Fd Fs Fg L. split.
  - intros (key & K & Z & V). destruct kt, key as [k|q]; try (inversion K; fail).
    + apply rsa_key_in in K; [|exact Fd]. destruct K as (D & A). destruct (accepted_nonzero _ _ A) as (N0 & E0).
      specialize (Z k eq_refl). cbn [rsa_size real_crypto] in Z. apply size_spec in Z; [|exact N0]. destruct Z as (bits & Z & Le).
      apply (by_rsa sha512 least a digest sig (rk_n k) (rk_e k) bits); try assumption.
      apply rsa_check_spec; assumption.
    + apply ed_key_in in K; [|exact Fd]. destruct K as (public & D & K). apply (by_ed25519 sha512 least a digest sig public); [exact D|].
      eapply valid_spec; [| |exact K|exact V]; [|exact Fs]. destruct D as [<-|D]; [exact Fd|eapply ed_info_bytes; eassumption].
  - intros H. destruct H as [n e bits data D A Z Le V|public data D V].
    + destruct (accepted_nonzero _ _ A) as (N0 & E0). exists (VkRsa (C := real_crypto) (mkRsaKey n e)).
      split; [apply rsa_key_in; [exact Fd|cbn [rk_n rk_e]; auto]|]. split.
      * intros pk Hp. injection Hp as <-. apply size_spec; [exact N0|]. exists bits. auto.
      * apply rsa_check_spec; assumption.
    + assert (Forall is_byte public) as Fp by (destruct D as [<-|D]; [exact Fd|eapply ed_info_bytes; eassumption]).
      assert (exists q, ed_key public = Some q) as (q & K).
      { apply key_readable; [exact Fp|]. destruct V as (? & ? & ? & a0 & ? & ? & ? & ? & ? & _ & _ & V & _). exists a0. exact V. }
      exists (VkEd25519 (C := real_crypto) q). split; [apply ed_key_in; [exact Fd|exists public; auto]|]. split; [discriminate|].
      apply (valid_spec public); assumption.
Qed.

Lemma confirmed_some : forall least a digest sig kt data, key_confirms sha512 least a digest sig kt data -> data <> [].
Proof.
  assert (forall tag c bs, der_element tag c bs -> bs <> []) as El by (intros tag c bs [H|l H]; discriminate).
  intros least a digest sig kt data [n e bits data' [D|D] _ _ _ _|public data' D V].
  - destruct D as (? & ? & ? & _ & _ & _ & D). exact (El _ _ _ D).
  - destruct D as (? & ? & _ & _ & D). exact (El _ _ _ D).
  - destruct D as [->|(? & ? & _ & _ & D)]; [|exact (El _ _ _ D)]. intros ->.
    destruct V as (? & ? & ? & ? & ? & ? & ? & ? & ? & _ & _ & (_ & L & _) & _). discriminate L.
Qed.

Notation sha := (hash_fn real_crypto).

Theorem valid_iff : forall canonical zone config now headers body name value sig k,
  valid_dkim E canonical zone config now headers body name value sig k
  <-> valid_signature sha sha512 E canonical zone config now headers body name value sig k.
Proof.
  intros canonical zone config now headers body name value sig k.
  assert (forall a data, Forall is_byte (sha a data)) as Hb by apply (real_typed pre m idna).
  assert (forall tags, signature_of (env_pre E) (env_idna E) tags sig -> Forall is_byte (s_signature_data sig)) as Sb.
  { intros tags (_ & _ & (t & _ & (B & _) & _) & _). exact B. }
  assert (forall tags, record_of (env_pre E) tags k -> Forall is_byte (k_key_data k)) as Kb.
  { intros tags (_ & _ & _ & _ & (t & _ & B & _) & _). exact B. }
  split.
  - intros (s & tags & txt & key & data & rest & A1 & A2 & A3 & A4 & A5 & A6 & (A7 & A8 & _ & A9 & A10 & A11 & A12) & A13 & A14 & A15 & A16).
    destruct A7 as (r & rtags & R1 & -> & R2 & R3). exists s, tags, r, rtags, data, rest.
    repeat (split; [assumption|]). split; [|split; assumption].
    apply (proj1 (confirmed_spec (N.max (if env_pre E then 512 else 1024) (cf_min_key_bits config)) (alg_hash (s_algorithm sig)) (k_key_type k) (k_key_data k)
      (sha (alg_hash (s_algorithm sig)) data) (s_signature_data sig) (Kb _ R3) (Sb _ A4) (Hb _ _) (digest_length _ _))).
    exists key. auto.
  - intros (s & tags & r & rtags & data & rest & A1 & A2 & A3 & A4 & A5 & A6 & R1 & R2 & R3 & A8 & A9 & A10 & A13 & A14 & A15 & A16).
    pose proof (confirmed_some _ _ _ _ _ _ A14) as Ne.
    apply (proj2 (confirmed_spec (N.max (if env_pre E then 512 else 1024) (cf_min_key_bits config)) (alg_hash (s_algorithm sig)) (k_key_type k) (k_key_data k)
      (sha (alg_hash (s_algorithm sig)) data) (s_signature_data sig) (Kb _ R3) (Sb _ A4) (Hb _ _) (digest_length _ _))) in A14.
    destruct A14 as (key & K1 & K2 & K3). exists s, tags, (as_bytes r), key, data, rest.
    repeat (split; [assumption|]). split; [|repeat (split; [assumption|]); assumption].
    split; [exists r, rtags; auto|]. repeat (split; [assumption|]). assumption.
Qed.

Theorem real_success : forall w headers config chunks zone rs i name value r, world_ok w -> steady (w_resolver w) zone ->
  header_fields headers -> verify_message E w headers config chunks = Val (Some rs) -> result_for config headers rs i name value r ->
  let valid := valid_signature sha sha512 E canonical_body zone config (w_clock w i) headers (concat chunks) name value in
  (vr_status r = Success <-> exists sig k, valid sig k)
  /\ (vr_status r = Success -> exists sig k, vr_signature r = Some sig /\ vr_key_record r = Some k /\ valid sig k)
  /\ (forall sig k, valid sig k -> vr_signature r = Some sig).
Proof.
  intros w headers config chunks zone rs i name value r W S H V R valid. destruct (success_exact _ _ _ _ _ _ _ _ _ _ _ W S H V R) as (A & B & C).
  split; [|split].
  - rewrite A. split; intros (sig & k & X); exists sig, k; apply valid_iff; exact X.
  - intros X. destruct (B X) as (sig & k & ? & ? & Y). exists sig, k. split; [assumption|]. split; [assumption|]. apply valid_iff. exact Y.
  - intros sig k X. apply (C sig k). apply valid_iff. exact X.
Qed.

Theorem real_success_rfc : forall w headers config chunks zone rs i name value r, world_ok w -> steady (w_resolver w) zone ->
  header_fields headers -> verify_message E w headers config chunks = Val (Some rs) -> result_for config headers rs i name value r ->
  let valid := valid_signature sha sha512 E rfc_body zone config (w_clock w i) headers (concat chunks) name value in
  (forall sig, vr_signature r = Some sig -> regular_body (c_body (s_canonicalization sig)) (concat chunks)) ->
  (vr_status r = Success <-> exists sig k, valid sig k)
  /\ (vr_status r = Success -> exists sig k, vr_signature r = Some sig /\ vr_key_record r = Some k /\ valid sig k).
Proof.
  intros w headers config chunks zone rs i name value r W S H V R valid Reg. destruct (success_rfc _ _ _ _ _ _ _ _ _ _ _ W S H V R Reg) as (A & B).
  split.
  - rewrite A. split; intros (sig & k & X); exists sig, k; apply valid_iff; exact X.
  - intros X. destruct (B X) as (sig & k & ? & ? & Y). exists sig, k. split; [assumption|]. split; [assumption|]. apply valid_iff. exact Y.
Qed.

(** ** Keys in use *)

Theorem key_bits : forall w headers config chunks zone rs i name value r, world_ok w -> steady (w_resolver w) zone ->
  header_fields headers -> verify_message E w headers config chunks = Val (Some rs) -> result_for config headers rs i name value r ->
  vr_status r = Success -> exists k, vr_key_record r = Some k
    /\ (k_key_type k = Rsa -> exists n e bits, (rsa_info_der n e (k_key_data k) \/ rsa_public_der n e (k_key_data k))
          /\ bits_in_bytes n bits /\ N.max (if pre then 512 else 1024) (cf_min_key_bits config) <= bits).
Proof.
  intros w headers config chunks zone rs i name value r W S H V R Su.
  destruct (real_success _ _ _ _ _ _ _ _ _ _ W S H V R) as (_ & X & _). destruct (X Su) as (sig & k & _ & K & Va). exists k. split; [exact K|].
  intros T. destruct Va as (s & tags & r0 & rtags & data & rest & _ & _ & _ & _ & _ & _ & _ & _ & _ & _ & _ & _ & _ & C & _).
  rewrite T in C. inversion C as [n e bits data' D _ Bi Le _ E1 E2|]; subst. exists n, e, bits. auto.
Qed.

Theorem real_end_to_end_result : forall order w n e d known dom sel headers chunks chunks' clock zone,
  idna_ok idna -> rsa_pair n e d -> rsa_accepted n e -> 2 ^ 1016 <= n ->
  domain_text idna dom true -> domain_text idna sel false -> Forall is_scalar dom -> Forall is_scalar sel ->
  (forall l, Permutation (order l) l) -> header_fields headers -> (exists f, In f headers /\ same_name (fst f) (lit "From")) ->
  world_ok w -> steady (w_resolver w) zone -> rsa_published E zone dom sel n e ->
  concat chunks' = concat chunks ->
  let signed := clock 0%nat in let now := w_clock w 0 in
  signed < 2^64 - 1 -> signed <= now + 300 -> now < signed + 432000 + 300 -> now < 2^64 - 1 ->
  let key := SkRsa (C := real_crypto) (mkRsaSecret (mkRsaKey n e) d known) in
  exists o, sign_message E order headers [request_new E dom sel RsaSha256 key] chunks clock = Val (Ok [Ok o])
    /\ header_fields (signature_field o :: headers)
    /\ exists rs res, verify_message E w (signature_field o :: headers) default_config chunks' = Val (Some rs)
         /\ result_for default_config (signature_field o :: headers) rs 0 (so_header_name o) (as_bytes (so_header_value o)) res
         /\ vr_status res = Success.
Proof.
  intros order w n e d known dom sel headers chunks chunks' clock zone Io P Acc L Hd Hs Sd Ss O H From W S Pub B signed now T1 T2 T3 T4 key.
  destruct (real_end_to_end pre m idna order w n e d known dom sel headers chunks chunks' clock zone Io P Acc L Hd Hs Sd Ss O H From W S Pub B T1 T2 T3 T4) as (o & Sg & res & rest & V & _ & Su).
  exists o. split; [exact Sg|].
  assert (signed_output E headers chunks clock 0 (request_new E dom sel RsaSha256 key) o) as So.
  { split; [apply real_typed|]. split; [exact H|]. exists order, [request_new E dom sel RsaSha256 key], [Ok o].
    split; [constructor; [apply request_new_typed; assumption|constructor]|]. auto. }
  destruct (field_named E _ _ _ _ _ _ Io (fresh_readable E dom sel RsaSha256 key _ _ _ _ _ Sd Ss ltac:(discriminate) T1 So)) as (Fn & Ff).
  split. { inversion Ff. constructor; [assumption|exact H]. }
  exists (res :: rest), res. split; [exact V|]. split; [|exact Su].
  exists 0%nat. split; [|reflexivity]. unfold examined. change (cf_max_signatures default_config) with 10%nat. cbn [signature_fields signature_field fst].
  apply same_nameb_iff in Fn. rewrite Fn. reflexivity.
Qed.

End Real.
