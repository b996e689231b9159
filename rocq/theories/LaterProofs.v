(** Proofs about the same message verified again. *)

From Coq Require Import String List Lia NArith Permutation.
From Verif Require Import Base Utf8 Canon BodyHash Header Domain Signature KeyRecord Crypto TagList Format Sign Verify
  SpecText SpecCanon SpecHash SpecHeader SpecTag SpecDomain SpecSig SpecRecord SpecFormat SpecSign SpecOutput SpecVerify SpecEnd SpecDkim SpecUnique
  SpecTransit SpecAuthor SpecChange SpecLater
  SigProofs VerifyProofs VerifyKeys VerifyRun VerifyFacts EndProofs DkimProofs ChangeProofs Lib.
Import ListNotations.
Open Scope N_scope.

Lemma first_of_in : forall (A : Type) (l : list (Prop * A)) e, first_of l (Some e) -> exists P, In (P, e) l /\ P.
Proof.
  intros A l e H. remember (Some e) as x eqn:X. revert e X. induction H as [|P a l Hp|P a l r N H IH]; intros e X; [discriminate X| |].
  - injection X as ->. exists P. split; [left; reflexivity|exact Hp].
  - destruct (IH e X) as (Q & I & Hq). exists Q. split; [right; exact I|exact Hq].
Qed.

Lemma consulted_short : forall (A : Type) (l : list A), (length l <= 3)%nat -> consulted l = l.
Proof. intros A [|a [|b [|c [|d l]]]] H; try reflexivity. cbn [length] in H. lia. Qed.

Lemma timely_iff : forall config now sig, timely config now sig <-> ~ expired config now sig /\ ~ in_future config now sig.
Proof.
  intros config now sig. unfold timely, expired, in_future. split.
  - intros (T1 & T2). split; intros (A & x & X & L); [specialize (T1 A x X)|specialize (T2 A x X)]; lia.
  - intros (N1 & N2). split; intros A x X.
    + destruct (N.le_gt_cases (N.min (x + cf_time_tolerance config) (2^64 - 1)) (seconds config now)) as [L|L]; [|lia].
      exfalso. apply N1. split; [exact A|]. exists x. auto.
    + destruct (N.le_gt_cases x (seconds config now + cf_time_tolerance config)) as [L|L]; [exact L|].
      exfalso. apply N2. split; [exact A|]. exists x. auto.
Qed.

Section WithEnv.
Variable E : Env.

Notation valid := (valid_dkim E canonical_body).

Lemma result_valid : forall config zone now headers body name value r, result_of E config zone now headers body name value r ->
  (vr_status r = Success <-> exists sig k, valid zone config now headers body name value sig k)
  /\ (vr_status r = Success -> exists sig k, vr_signature r = Some sig /\ vr_key_record r = Some k /\ valid zone config now headers body name value sig k)
  /\ (forall sig k, valid zone config now headers body name value sig k -> vr_signature r = Some sig).
Proof.
  intros config zone now headers body name value r (w & chunks & rs & i & W & Z & F & -> & V & R & <-).
  exact (success_exact _ _ _ _ _ _ _ _ _ _ _ W Z F V R).
Qed.

(** what valid signatures have in common, whatever the time and DNS *)
Lemma valid_again : forall config zone zone' now now' headers body name value sig k,
  valid zone config now headers body name value sig k ->
  ((exists sig' k', valid zone' config now' headers body name value sig' k')
   <-> timely config now' sig /\ confirmed_in E zone' config headers name value sig).
Proof.
  intros config zone zone' now now' headers body name value sig k V.
  pose proof V as (s & tags & txt & key & data & rest & H1 & H2 & H3 & H4 & (G1 & G2 & G3 & G4 & G5 & G6) & H6 & H7 & H8 & H9 & H10 & H11). split.
  - intros (sig' & k' & (s' & tags' & txt' & key' & data' & rest' & K1 & K2 & K3 & K4 & (_ & _ & _ & T1 & T2 & _) & K6 & K7 & K8 & K9 & _)).
    assert (signature_read E value s (Ok sig)) as R by (apply read_iff; eauto).
    assert (signature_read E value s' (Ok sig')) as R' by (apply read_iff; eauto).
    destruct (signature_read_det _ _ _ _ _ _ R R') as [_ X]. injection X as <-.
    split; [split; assumption|]. exists txt', k', key', data'. repeat (split; [assumption|]). split; [|assumption]. exists s', tags'. auto.
  - intros ((T1 & T2) & txt' & k' & key' & data' & K1 & K2 & (s' & tags' & Q1 & Q2 & Q3 & Q4 & Q5) & K4).
    exists sig, k', s', tags', txt', key', data', rest. repeat (split; [assumption|]). split; [|auto 10]. unfold signature_good. auto 10.
Qed.

Section Again.
Variables (config : Config) (zone zone' : str -> IoResult (list (IoResult (list byte)))) (now now' : N).
Variables (headers : list HeaderField) (body : list byte) (name : str) (value : list byte) (r r' : VerificationResult) (sig : DkimSig).
Hypothesis R : result_of E config zone now headers body name value r.
Hypothesis S : vr_status r = Success.
Hypothesis Sg : vr_signature r = Some sig.
Hypothesis R' : result_of E config zone' now' headers body name value r'.

Lemma first_valid : exists k, valid zone config now headers body name value sig k.
Proof. destruct (result_valid _ _ _ _ _ _ _ _ R) as (_ & X & _). destruct (X S) as (sig' & k & Q & _ & V). rewrite Sg in Q. injection Q as <-. eauto. Qed.

Theorem again : vr_status r' = Success <-> timely config now' sig /\ confirmed_in E zone' config headers name value sig.
Proof.
  destruct first_valid as (k & V). destruct (result_valid _ _ _ _ _ _ _ _ R') as (X & _). rewrite X. exact (valid_again _ _ _ _ _ _ _ _ _ _ _ V).
Qed.

Lemma first_read : exists s, signature_read E value s (Ok sig) /\ signature_good E headers config now sig /\ body_matches E config sig body.
Proof.
  destruct (result_verdict E _ _ _ _ _ _ _ _ R) as (i & V & _).
  destruct (verdict_success_record _ _ _ _ _ _ _ _ _ _ V S) as (s0 & sig0 & txt & k & p & txts & SR0 & G & Sg0 & _ & _ & _ & _ & _ & BM).
  assert (sig0 = sig) as -> by congruence. eauto.
Qed.

Lemma key_failure : forall s txts k e, records_outcome E headers config sig name s txts k (Some e) ->
  later_failure e /\ e <> Policy SignatureExpired /\ e <> Policy TimestampInFuture.
Proof.
  intros s txts k e H. remember (Some e) as x eqn:X. revert e X. induction H as [|? ? ? O|]; intros e0 X; try discriminate X; auto.
  injection X as ->. inversion O as [| |? ? ? ? ? Fo]; subst; [split; [constructor|split; discriminate]..|].
  apply first_of_in in Fo as (P & I & _). unfold key_checks in I. cbv zeta in I.
  repeat (destruct I as [I|I]; [injection I as _ <-; split; [constructor|split; discriminate]|]). destruct I.
Qed.

(** every later failure is one of time, lookup, or key records; the first two exactly *)
Theorem again_failure : vr_signature r' = Some sig /\ forall e, vr_status r' = Failure e ->
  later_failure e
  /\ (e = Policy SignatureExpired <-> expired config now' sig)
  /\ (e = Policy TimestampInFuture <-> ~ expired config now' sig /\ in_future config now' sig)
  /\ (~ timely config now' sig <-> e = Policy SignatureExpired \/ e = Policy TimestampInFuture).
Proof.
  destruct first_read as (s & SR & G & BM). destruct (result_verdict E _ _ _ _ _ _ _ _ R') as (i & V & _).
  assert (forall s' sig', signature_read E value s' (Ok sig') -> sig' = sig) as Same
    by (intros s' sig' H; destruct (signature_read_det _ _ _ _ _ _ SR H) as [_ X]; congruence).
  assert (forall s', in_progress E headers config now' value s' sig -> timely config now' sig) as Tm.
  { intros s' [_ H]. apply signature_good_iff in H. destruct H as (_ & _ & _ & T1 & T2 & _). split; assumption. }
  assert (forall e, timely config now' sig -> later_failure e /\ e <> Policy SignatureExpired /\ e <> Policy TimestampInFuture ->
    later_failure e
    /\ (e = Policy SignatureExpired <-> expired config now' sig)
    /\ (e = Policy TimestampInFuture <-> ~ expired config now' sig /\ in_future config now' sig)
    /\ (~ timely config now' sig <-> e = Policy SignatureExpired \/ e = Policy TimestampInFuture)) as Late.
  { intros e T (L & N1 & N2). pose proof T as T'. rewrite timely_iff in T'. tauto. }
  inversion V as [s' e SR' Eq|s' sig' e SR' Fo Eq|s' sig' p k e IP LP A LE Eq|s' sig' p IP LP A Eq|s' sig' p txts k e IP LP A RO Eq|s' sig' p txts k IP LP A RO Eq]; subst r'; cbn [vr_signature vr_status].
  - destruct (signature_read_det _ _ _ _ _ _ SR SR') as [_ X]. discriminate X.
  - rewrite (Same _ _ SR') in *. split; [reflexivity|]. intros e' Q. injection Q as <-.
    assert (~ (required_missing config sig \/ unsigned_occurrence headers config sig \/ length_unusable E sig \/ forbidden_sha1 config sig)) as NG.
    { apply signature_good_iff in G. unfold signature_checks in G.
      inversion G as [| |? ? ? ? N1 F1]; subst. inversion F1 as [| |? ? ? ? N2 F2]; subst. inversion F2 as [| |? ? ? ? N3 F3]; subst.
      inversion F3 as [| |? ? ? ? N4 F4]; subst. inversion F4 as [| |? ? ? ? N5 F5]; subst. inversion F5 as [| |? ? ? ? N6 F6]; subst. tauto. }
    unfold signature_checks in Fo. rewrite timely_iff.
    inversion Fo as [|? ? ? P1|? ? ? ? N1 F1]; subst; [tauto|]. inversion F1 as [|? ? ? P2|? ? ? ? N2 F2]; subst; [tauto|].
    inversion F2 as [|? ? ? P3|? ? ? ? N3 F3]; subst; [tauto|].
    inversion F3 as [|? ? ? P4|? ? ? ? N4 F4]; subst; [split; [constructor|]; split; [tauto|]; split; [split; [discriminate|tauto]|tauto]|].
    inversion F4 as [|? ? ? P5|? ? ? ? N5 F5]; subst; [split; [constructor|]; split; [split; [discriminate|tauto]|tauto]|].
    inversion F5 as [|? ? ? P6|? ? ? ? N6 F6]; subst; [tauto|]. inversion F6.
  - pose proof (Same _ _ (proj1 IP)); subst sig'. split; [reflexivity|]. intros e' Q. injection Q as <-. apply Late; [exact (Tm _ IP)|].
    destruct LE; (split; [constructor|split; discriminate]).
  - pose proof (Same _ _ (proj1 IP)); subst sig'. split; [reflexivity|]. intros e' Q. injection Q as <-. apply Late; [exact (Tm _ IP)|].
    split; [constructor|split; discriminate].
  - pose proof (Same _ _ (proj1 IP)); subst sig'. split; [reflexivity|]. intros e' Q. injection Q as <-. apply Late; [exact (Tm _ IP)|].
    exact (key_failure _ _ _ _ RO).
  - pose proof (Same _ _ (proj1 IP)); subst sig'. split; [reflexivity|]. intros e' Q. apply body_success in BM. rewrite BM in Q. discriminate Q.
Qed.

End Again.

(** ** Time *)

Theorem no_gap : forall config zone now1 now2 now3 headers body name value r1 r2 r3,
  result_of E config zone now1 headers body name value r1 -> result_of E config zone now2 headers body name value r2 ->
  result_of E config zone now3 headers body name value r3 -> now1 <= now2 -> now2 <= now3 ->
  vr_status r1 = Success -> vr_status r3 = Success -> vr_status r2 = Success.
Proof.
  intros config zone now1 now2 now3 headers body name value r1 r2 r3 R1 R2 R3 L1 L2 S1 S3.
  destruct (result_valid _ _ _ _ _ _ _ _ R1) as (_ & X & _). destruct (X S1) as (sig & k & Sg & _).
  apply (again _ _ _ _ _ _ _ _ _ _ _ _ R1 S1 Sg R2). apply (again _ _ _ _ _ _ _ _ _ _ _ _ R1 S1 Sg R3) in S3 as ((T1 & _) & C).
  pose proof (proj1 (again _ _ _ _ _ _ _ _ _ _ _ _ R1 S1 Sg R1) S1) as ((_ & T2) & _). split; [|exact C]. unfold timely in *. unfold seconds in *.
  destruct (cf_fixed_system_time config); [auto|]. split.
  - intros A x Hx. specialize (T1 A x Hx). lia.
  - intros A t Ht. specialize (T2 A t Ht). lia.
Qed.

(** ** DNS *)

Theorem more_records : forall config zone zone' now headers body name value r r', more_consulted zone zone' ->
  result_of E config zone now headers body name value r -> result_of E config zone' now headers body name value r' ->
  vr_status r = Success -> vr_status r' = Success /\ vr_signature r' = vr_signature r.
Proof.
  intros config zone zone' now headers body name value r r' M R R' S.
  destruct (result_valid _ _ _ _ _ _ _ _ R) as (_ & X & _). destruct (X S) as (sig & k & Sg & _).
  split; [|rewrite Sg; exact (proj1 (again_failure _ _ _ _ _ _ _ _ _ _ _ _ R S Sg R'))].
  apply (again _ _ _ _ _ _ _ _ _ _ _ _ R S Sg R'). pose proof (proj1 (again _ _ _ _ _ _ _ _ _ _ _ _ R S Sg R) S) as (T & txt & k' & key & data & P & Q).
  split; [exact T|]. exists txt, k', key, data. split; [|exact Q]. destruct P as (d & sl & txts & P1 & P2 & P3 & P4).
  destruct (M _ _ P3) as (txts' & M1 & M2). exists d, sl, txts'. auto.
Qed.

Theorem order_records : forall config zone zone' now headers body name value r r',
  reordered zone zone' -> (forall n txts, zone n = Ok txts -> (length txts <= 3)%nat) ->
  result_of E config zone now headers body name value r -> result_of E config zone' now headers body name value r' ->
  (vr_status r = Success <-> vr_status r' = Success).
Proof.
  intros config zone zone' now headers body name value r r' Ro L R R'. split; intros S.
  - refine (proj1 (more_records _ zone zone' _ _ _ _ _ r r' _ R R' S)). intros n txts H. specialize (Ro n). rewrite H in Ro.
    destruct (zone' n) as [txts'|]; [|destruct Ro]. exists txts'. split; [reflexivity|]. specialize (L _ _ H).
    rewrite !consulted_short; [|rewrite <- (Permutation_length Ro); exact L|exact L]. intros x. apply Permutation_in. exact Ro.
  - refine (proj1 (more_records _ zone' zone _ _ _ _ _ r' r _ R' R S)). intros n txts H. specialize (Ro n). rewrite H in Ro.
    destruct (zone n) as [txts'|] eqn:Z; [|destruct Ro]. exists txts'. split; [reflexivity|]. specialize (L _ _ Z).
    rewrite !consulted_short; [|exact L|rewrite <- (Permutation_length Ro); exact L]. intros x. apply Permutation_in. apply Permutation_sym. exact Ro.
Qed.

End WithEnv.
