(** Lemmas on reading signing keys. *)

From Coq Require Import List.
From Verif Require Import Base Crypto Pem SpecSign SpecPem Lib.
Import ListNotations.

Lemma pem_key : forall C (P : Pkcs8 C) s,
  (forall k, from_pkcs8_pem P s = Ok (SkRsa k) <-> exists pk, private_key P s pk /\ pk_rsa P pk = Some k)
  /\ (forall k, from_pkcs8_pem P s = Ok (SkEd25519 k) <-> exists pk, private_key P s pk /\ pk_rsa P pk = None /\ pk_ed25519 P pk = Some k).
Proof.
  intros C P s. unfold private_key, from_pkcs8_pem.
  split; intros k; (split; [intros H|intros (pk & (label & doc & -> & -> & ->) & K); cbn; try (rewrite K; reflexivity); destruct K as [-> ->]; reflexivity]);
    destruct (pk_document P s) as [[label doc]|] eqn:D; try discriminate; destruct (pk_label_ok P label) eqn:L; try discriminate; cbn in H;
    destruct (pk_read_info P doc) as [pk|] eqn:I; try discriminate; destruct (pk_rsa P pk) eqn:R; try discriminate.
  - injection H as ->. exists pk. split; [|exact R]. exists label, doc. auto.
  - destruct (pk_ed25519 P pk); discriminate.
  - destruct (pk_ed25519 P pk) eqn:E; [|discriminate]. injection H as ->. exists pk. split; [|auto]. exists label, doc. auto.
Qed.

Lemma pem_error : forall C (P : Pkcs8 C) s e, from_pkcs8_pem P s = Err e <->
  first_of
    [ (pk_document P s = None, InvalidPemDocument);
      ((exists label doc, pk_document P s = Some (label, doc) /\ pk_label_ok P label = false), NotAPrivateKeyInfoDocument);
      ((forall pk, ~ private_key P s pk), InvalidKeyData);
      ((forall pk, private_key P s pk -> pk_rsa P pk = None /\ pk_ed25519 P pk = None), SkUnsupportedKeyType) ] (Some e).
Proof.
  intros C P s e. unfold private_key, from_pkcs8_pem. destruct (pk_document P s) as [[label doc]|] eqn:D.
  2: { split; [intros H; injection H as <-; apply fo_here; reflexivity|]. intros H. inversion H; subst; [reflexivity|tauto]. }
  destruct (pk_label_ok P label) eqn:L; cbn [negb].
  2: { split.
    - intros H. injection H as <-. apply fo_next; [discriminate|]. apply fo_here. eauto.
    - intros H. inversion H; subst; [discriminate|]. inversion H5; subst; [reflexivity|]. exfalso. eauto. }
  assert (~ exists label0 doc0, Some (label, doc) = Some (label0, doc0) /\ pk_label_ok P label0 = false) as NL.
  { intros (a & b & X & Y). injection X as <- <-. congruence. }
  destruct (pk_read_info P doc) as [pk|] eqn:I.
  2: { split.
    - intros H. injection H as <-. apply fo_next; [discriminate|]. apply fo_next; [exact NL|]. apply fo_here.
      intros pk (a & b & X & _ & Y). injection X as <- <-. congruence.
    - intros H. inversion H; subst; [discriminate|]. inversion H5; subst; [tauto|]. inversion H7; subst; [reflexivity|].
      exfalso. apply H8. intros pk (a & b & X & _ & Y). injection X as <- <-. congruence. }
  assert (~ forall pk0, ~ exists label0 doc0, Some (label, doc) = Some (label0, doc0) /\ pk_label_ok P label0 = true /\ pk_read_info P doc0 = Some pk0) as NK.
  { intros X. apply (X pk). eauto. }
  assert ((forall pk0, (exists label0 doc0, Some (label, doc) = Some (label0, doc0) /\ pk_label_ok P label0 = true /\ pk_read_info P doc0 = Some pk0) ->
    pk_rsa P pk0 = None /\ pk_ed25519 P pk0 = None) <-> pk_rsa P pk = None /\ pk_ed25519 P pk = None) as U.
  { split; [intros X; apply X; eauto|]. intros X pk0 (a & b & Y & _ & Z). injection Y as <- <-. assert (pk0 = pk) as -> by congruence. exact X. }
  assert (forall (A : SigningKey C), Ok A = Err e <-> False) as NO by (split; [discriminate|tauto]).
  assert (~ (pk_rsa P pk = None /\ pk_ed25519 P pk = None) -> ~ first_of
    [ (Some (label, doc) = None, InvalidPemDocument);
      ((exists label0 doc0, Some (label, doc) = Some (label0, doc0) /\ pk_label_ok P label0 = false), NotAPrivateKeyInfoDocument);
      ((forall pk0, ~ exists label0 doc0, Some (label, doc) = Some (label0, doc0) /\ pk_label_ok P label0 = true /\ pk_read_info P doc0 = Some pk0), InvalidKeyData);
      ((forall pk0, (exists label0 doc0, Some (label, doc) = Some (label0, doc0) /\ pk_label_ok P label0 = true /\ pk_read_info P doc0 = Some pk0) ->
         pk_rsa P pk0 = None /\ pk_ed25519 P pk0 = None), SkUnsupportedKeyType) ] (Some e)) as NF.
  { intros X H. inversion H; subst; [discriminate|]. inversion H5; subst; [tauto|]. inversion H7; subst; [tauto|]. inversion H9; subst; [tauto|]. inversion H11. }
  destruct (pk_rsa P pk) as [k|] eqn:R.
  { rewrite NO. split; [tauto|]. apply NF. intros [X _]. discriminate. }
  destruct (pk_ed25519 P pk) as [k|] eqn:E.
  { rewrite NO. split; [tauto|]. apply NF. intros [_ X]. discriminate. }
  split.
  - intros H. injection H as <-. apply fo_next; [discriminate|]. apply fo_next; [exact NL|]. apply fo_next; [exact NK|]. apply fo_here. apply U. auto.
  - intros H. inversion H; subst; [discriminate|]. inversion H5; subst; [tauto|]. inversion H7; subst; [tauto|]. inversion H9; subst; [reflexivity|]. inversion H11.
Qed.
