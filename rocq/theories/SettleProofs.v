(** Proofs about answers of resolvers (C100). *)

From Coq Require Import String List Arith Permutation.
From Verif Require Import Base Utf8 Canon BodyHash Header TagList Domain Signature KeyRecord Crypto Verify
  SpecText SpecCanon SpecHash SpecHeader SpecTag SpecDomain SpecSig SpecRecord SpecSign SpecVerify SpecSettle
  VerifyProofs VerifyRun VerifyFacts Lib.
Import ListNotations.
Open Scope N_scope.

(** the position of a name, 0 if there is none *)
Fixpoint place (name : str) (qs : list (str * str)) : nat :=
  match qs with
  | [] => 0
  | q :: qs' => if leqb (key_name q) name then 0 else match place name qs' with n => S n end
  end.

Lemma place_found : forall name qs p, In p qs -> key_name p = name ->
  exists q, nth_error qs (place name qs) = Some q /\ key_name q = name.
Proof.
  intros name qs p. induction qs as [|q qs IH]; [intros []|]. intros [->|I] K; cbn [place].
  - rewrite (proj2 (leqb_eq _ _) K). exists p. auto.
  - destruct (leqb (key_name q) name) eqn:X; [exists q; split; [reflexivity|apply leqb_eq; exact X]|]. exact (IH I K).
Qed.

Section WithEnv.
Variable E : Env.

Theorem settle : forall w headers config, world_ok w -> header_fields headers -> names_apart E headers config (w_clock w) ->
  exists zone, said w zone
    /\ forall chunks, verify_message E (settled w zone) headers config chunks = verify_message E w headers config chunks.
Proof.
  intros w headers config W Hh Ap.
  destruct (verify_spec E w headers config W Hh) as [[Ne V]|(Ne & v & qs & V & ND & Nd & R)].
  - exists (rs_answer (w_resolver w) 0). split; [intros name; eexists; reflexivity|]. intros chunks.
    assert (world_ok (settled w (rs_answer (w_resolver w) 0))) as W' by exact W.
    destruct (verify_message_cases E w headers config chunks W Hh) as [[_ ->]|[X _]]; [|contradiction].
    destruct (verify_message_cases E _ headers config chunks W' Hh) as [[_ ->]|[X _]]; [reflexivity|contradiction].
  - destruct (answer_exists (w_resolver w) qs ND) as (answer & A).
    set (zone := fun name => rs_answer (w_resolver w) (place name qs) name). exists zone.
    split; [intros name; eexists; reflexivity|]. intros chunks.
    assert (world_ok (settled w zone)) as W' by exact W.
    destruct (verify_message_cases E _ headers config chunks W' Hh) as [[X _]|(_ & rs' & M' & _)]; [contradiction|]. rewrite M'.
    assert (steady (w_resolver (settled w zone)) zone) as St by (intros n name; reflexivity).
    pose proof (evaluation_verdicts _ _ _ _ _ _ _ (steady_evaluation _ _ _ _ _ _ _ W' Hh St M')) as F'.
    destruct (R chunks) as (v2 & rs & R1 & R2 & R3). unfold verify_message. rewrite V. cbn [bind]. rewrite R1. cbn [bind]. rewrite R2. cbn [bind].
    f_equal. f_equal. specialize (R3 answer A).
    assert (forall p, In p qs -> answer p = zone (key_name p)) as Ag.
    { intros p I. destruct (place_found (key_name p) qs p I eq_refl) as (q & N1 & N2).
      assert (q = p) as -> by (apply Ap; [apply Nd; eapply nth_error_In; exact N1|apply Nd; exact I|exact N2]).
      exact (A _ p N1). }
    assert (forall f, In f (examined config headers) -> forall s sig p, in_progress E headers config (w_clock w (fst f)) (snd (snd f)) s sig -> lookup_pair E sig p ->
      answer p = zone (key_name p)) as Ag'.
    { intros [i [name value]] I s sig p P L. apply Ag. apply Nd. exists i, name, value, s, sig. auto. }
    clear - F' R3 Ag'. revert rs' F'. induction R3 as [|f r fs rs V R3 IH]; intros rs' F'; inversion F' as [|f' r' fs' rs2 V' F2]; subst; [reflexivity|].
    f_equal; [|apply IH; [intros x Hx; apply Ag'; right; exact Hx|exact F2]].
    eapply verdict_det; [exact V'|]. eapply verdict_answer; [|exact V]. intros s sig p P L. exact (Ag' f (or_introl eq_refl) s sig p P L).
Qed.

(** one signature *)
Lemma single_apart : forall headers config clock, (length (examined config headers) <= 1)%nat -> names_apart E headers config clock.
Proof.
  intros headers config clock Le p p' (i & n & v & s & sig & I & P & L) (i' & n' & v' & s' & sig' & I' & P' & L') _.
  destruct (examined config headers) as [|f [|]]; [destruct I| |cbn in Le; lia].
  destruct I as [->|[]], I' as [X|[]]. injection X as <- <- <-.
  destruct (in_progress_det _ _ _ _ _ _ _ _ _ P P') as [_ <-]. eapply lookup_pair_det; eassumption.
Qed.

(** answers for other names do not matter *)
Lemma settled_ext : forall w zone zone' headers config chunks, world_ok w -> header_fields headers ->
  (forall p, pair_needed E headers config (w_clock w) p -> zone (key_name p) = zone' (key_name p)) ->
  verify_message E (settled w zone) headers config chunks = verify_message E (settled w zone') headers config chunks.
Proof.
  intros w zone zone' headers config chunks W Hh Ag.
  assert (world_ok (settled w zone)) as W1 by exact W. assert (world_ok (settled w zone')) as W2 by exact W.
  destruct (verify_message_cases E _ headers config chunks W1 Hh) as [[N1 ->]|(N1 & rs1 & M1 & _)];
    destruct (verify_message_cases E _ headers config chunks W2 Hh) as [[N2 ->]|(N2 & rs2 & M2 & _)]; try contradiction; [reflexivity|].
  rewrite M1, M2. f_equal. f_equal.
  assert (steady (w_resolver (settled w zone)) zone) as S1 by (intros n name; reflexivity).
  assert (steady (w_resolver (settled w zone')) zone') as S2 by (intros n name; reflexivity).
  pose proof (evaluation_verdicts _ _ _ _ _ _ _ (steady_evaluation _ _ _ _ _ _ _ W1 Hh S1 M1)) as F1.
  pose proof (evaluation_verdicts _ _ _ _ _ _ _ (steady_evaluation _ _ _ _ _ _ _ W2 Hh S2 M2)) as F2.
  assert (forall f, In f (examined config headers) -> forall s sig p, in_progress E headers config (w_clock w (fst f)) (snd (snd f)) s sig -> lookup_pair E sig p ->
    zone (key_name p) = zone' (key_name p)) as Ag'.
  { intros [i [name value]] I s sig p P L. apply Ag. exists i, name, value, s, sig. auto. }
  clear - F1 F2 Ag'. revert rs2 F2. induction F1 as [|f r fs rs V F1 IH]; intros rs2 F2; inversion F2 as [|f' r' fs' rs' V' F3]; subst; [reflexivity|].
  f_equal; [|apply IH; [intros x Hx; apply Ag'; right; exact Hx|exact F3]].
  eapply verdict_det; [|exact V']. eapply verdict_answer; [|exact V]. intros s sig p P L. exact (Ag' f (or_introl eq_refl) s sig p P L).
Qed.

(** the pairs needed are those in the log *)
Lemma needed_logged : forall w headers config v log t p, world_ok w -> header_fields headers ->
  verify_header E w headers config = Val (Some (v, log, t)) -> pair_needed E headers config (w_clock w) p -> In p (map (fun x => fst (fst x)) log).
Proof.
  intros w headers config v log t p W Hh V P. destruct (verify_spec E w headers config W Hh) as [[_ X]|(_ & v' & qs & X & _ & Nd & _)]; [congruence|].
  rewrite V in X. injection X as _ -> _. apply Nd in P. clear -P. revert P. generalize 0%nat, 0. induction qs as [|q qs IH]; intros n t P; [destruct P|].
  cbn [lookup_log map fst]. destruct P as [->|P]; [left; reflexivity|right; apply IH; exact P].
Qed.

End WithEnv.
