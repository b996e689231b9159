(** Proofs: the public keys of Ed25519 that are read although they are no encodings of
    points. *)

From Coq Require Import String List Lia ZArith NArith.
From Verif Require Import Base Crypto SpecRsa SpecEd Concrete Lib NumberProofs ConcreteProofs Ed25519Proofs EdOrderProofs EdSignProofs EdSpecProofs.
Import ListNotations.
Open Scope N_scope.

Definition offsets : list N := [0; 1; 3; 4; 5; 6; 9; 10; 14; 15; 16; 18].
Definition key_text (y sign : N) : list byte := to_le 32 (y + 2 ^ 255 * sign).

Definition taken (bs : list byte) : bool := match read_point bs with Some _ => true | None => false end.
Definition regular (bs : list byte) : bool := match decode bs with Some _ => true | None => false end.

Lemma not_taken : forallb (fun k => forallb (fun s => negb (taken (key_text (p + k) s))) [0; 1]) [2; 7; 8; 11; 12; 13; 17] = true.
Proof. vm_compute. reflexivity. Qed.

Lemma irregular_taken : forallb (fun k => forallb (fun s => let t := key_text (p + k) s in taken t && negb (regular t)) [0; 1]) offsets = true.
Proof. vm_compute. reflexivity. Qed.

Lemma signs_taken : forallb (fun y => let t := key_text y 1 in taken t && negb (regular t)) [1; p - 1] = true.
Proof. vm_compute. reflexivity. Qed.

Lemma text_is : forall bs y sign, length bs = 32%nat -> little_endian bs (y + 2 ^ 255 * sign) -> bs = key_text y sign.
Proof. intros bs y sign L H. apply little_is; assumption. Qed.

Lemma below_19 : forall k, k < 19 -> In k (offsets ++ [2; 7; 8; 11; 12; 13; 17]).
Proof.
  intros k H. assert (forallb (fun k => existsb (N.eqb k) (offsets ++ [2; 7; 8; 11; 12; 13; 17])) (map N.of_nat (seq 0 19)) = true) as X by (vm_compute; reflexivity).
  rewrite forallb_forall in X. assert (In k (map N.of_nat (seq 0 19))) as I.
  { apply in_map_iff. exists (N.to_nat k). split; [apply N2Nat.id|]. apply in_seq. lia. }
  apply X in I. apply existsb_exists in I. destruct I as (x & I & E). apply N.eqb_eq in E. subst x. exact I.
Qed.

Lemma sign_bit : forall s, s < 2 -> In s [0; 1].
Proof. intros s H. assert (s = 0 \/ s = 1) as [->| ->] by lia; [left|right; left]; reflexivity. Qed.

Lemma zero_x : forall y, on_ (0%F, y) -> V y = 1 \/ V y = p - 1.
Proof.
  intros y O. apply on_xy in O. destruct O as (O & _). assert (y * y = 1 * 1)%F as Q.
  { replace (y * y)%F with (y * y - 1 + 1)%F by ring. rewrite O. ring. }
  apply roots in Q. destruct Q as [->| ->]; [left; symmetry; exact one_V|right].
  rewrite opp_V by exact one_zero_p. rewrite <- one_V. reflexivity.
Qed.

Lemma both : forall bs, taken bs && negb (regular bs) = true -> (exists q, ed_key bs = Some q) /\ ~ (exists a, ed_encoding a bs).
Proof.
  intros bs H. apply andb_prop in H. destruct H as (T & R). unfold taken, regular in *. unfold ed_key. split.
  - destruct (read_point bs); [|discriminate T]. eexists. reflexivity.
  - intros (a & A). apply decode_complete in A. destruct A as (q & a' & _ & _ & D & _). rewrite D in R. discriminate R.
Qed.

Theorem irregular_keys : forall bs, Forall is_byte bs -> ((exists q, ed_key bs = Some q) /\ ~ (exists a, ed_encoding a bs) <-> ed_irregular bs).
Proof.
  intros bs B. split.
  - intros ((q & K) & Ne). unfold ed_key in K. destruct (read_point bs) as [q'|] eqn:D; [|discriminate].
    pose proof D as T. apply read_sound in D; [|exact B]. destruct D as (a & O & _ & C & L & y & sign & E & Y & Q & S & P).
    split; [exact L|]. exists y, sign. split; [exact E|]. destruct (N.lt_ge_cases y p) as [Lt|Ge].
    + right. unfold equal in Q. rewrite modulus_p, (N.mod_small y) in Q by exact Lt. rewrite N.mod_small in Q by (destruct a; apply V_lt). subst y.
      destruct P as [P|P]; [destruct Ne; exists (W a); split; [exact C|split; [exact L|]]; rewrite <- P; exact E|].
      assert (sign = 1) as ->.
      { destruct (N.eq_dec sign 0) as [Z|Z]; [|lia]. destruct Ne. exists (W a). split; [exact C|]. split; [exact L|]. rewrite P. rewrite Z in E. exact E. }
      split; [|reflexivity]. destruct a as (x, y). unfold W in *. cbn [fst snd] in *. apply V_zero in P. subst x. apply zero_x in O.
      rewrite modulus_p. destruct O as [->| ->]; [left|right; left]; reflexivity.
    + left. split; [|exact S]. assert (exists k, y = p + k /\ k < 19) as (k & -> & K19).
      { exists (y - p). change p with (2 ^ 255 - 19) in *. generalize dependent (2 ^ 255). intros. lia. }
      rewrite modulus_p. apply in_map. apply below_19 in K19. apply in_app_or in K19. destruct K19 as [I|I]; [exact I|].
      exfalso. pose proof not_taken as X. rewrite forallb_forall in X. apply X in I. rewrite forallb_forall in I. specialize (I sign (sign_bit _ S)).
      rewrite <- (text_is _ _ _ L E) in I. unfold taken in I. rewrite T in I. discriminate I.
  - intros (L & y & sign & E & H). apply text_is in E; [|exact L]. subst bs. rewrite modulus_p in H. destruct H as [(I & S)|(I & ->)].
    + apply in_map_iff in I. destruct I as (k & <- & I). pose proof irregular_taken as X. rewrite forallb_forall in X. apply X in I.
      rewrite forallb_forall in I. apply both. exact (I sign (sign_bit _ S)).
    + pose proof signs_taken as X. rewrite forallb_forall in X. apply both. exact (X y I).
Qed.
