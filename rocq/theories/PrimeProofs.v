(** Proofs of primality by trial division, for examples of keys. *)

From Coq Require Import List Lia ZArith NArith Wf_nat.
From Verif Require Import Base SpecRsa NumberProofs.
Import ListNotations.
Open Scope N_scope.

Lemma least_factor : forall n, 1 < n -> exists r, prime r /\ N.divide r n /\ (prime n \/ r * r <= n).
Proof.
  intros n Hn.
  assert (exists r, 1 < r /\ N.divide r n /\ forall x, 1 < x -> N.divide x n -> r <= x) as (r & R1 & R2 & R3).
  { assert (forall k, 1 < k -> N.divide k n -> exists r, 1 < r /\ N.divide r n /\ forall x, 1 < x -> N.divide x n -> r <= x) as X.
    { intros k. induction k as [k IH] using (well_founded_induction N.lt_wf_0). intros K1 K2.
      assert (Dec : (exists x, 1 < x < k /\ N.divide x n) \/ ~ (exists x, 1 < x < k /\ N.divide x n)).
      { clear - Hn. assert (forall j, (exists x, 1 < x < j /\ N.divide x n) \/ ~ (exists x, 1 < x < j /\ N.divide x n)) as X.
        { induction j as [|j IH] using N.peano_ind; [right; intros (x & X & _); lia|].
          destruct IH as [IH|IH]; [left; destruct IH as (x & X & Y); exists x; split; [lia|exact Y]|].
          destruct (N.eq_dec (n mod j) 0) as [Z|Z].
          - destruct (N.ltb_spec 1 j) as [W|W].
            + left. exists j. split; [lia|]. apply N.mod_divide; [lia|exact Z].
            + right. intros (x & X & Y). lia.
          - right. intros (x & X & Y). destruct (N.eq_dec x j) as [->|Ne].
            + apply Z. apply N.mod_divide; [lia|exact Y].
            + apply IH. exists x. split; [lia|exact Y]. }
        apply X. }
      destruct Dec as [(x & X & Y)|Dec]; [apply (IH x); [lia|lia|exact Y]|].
      exists k. split; [exact K1|]. split; [exact K2|]. intros x X Y. destruct (N.le_gt_cases k x); [assumption|].
      destruct Dec. exists x. split; [lia|exact Y]. }
    apply (X n Hn). apply N.divide_refl. }
  exists r. split; [|split; [exact R2|]].
  - split; [exact R1|]. intros d D. destruct (N.eq_dec d 1); [left; assumption|right].
    assert (d <> 0) by (intros ->; apply N.divide_0_l in D; lia).
    assert (d <= r) by (apply N.divide_pos_le; [lia|exact D]).
    assert (r <= d) by (apply R3; [lia|eapply N.divide_trans; eassumption]). lia.
  - destruct R2 as (t & Ht). destruct (N.eq_dec t 1) as [->|T].
    + left. replace n with r by lia. split; [exact R1|]. intros d D. destruct (N.eq_dec d 1); [left; assumption|right].
      assert (d <> 0) by (intros ->; apply N.divide_0_l in D; lia).
      assert (d <= r) by (apply N.divide_pos_le; [lia|exact D]).
      assert (r <= d); [|lia]. apply R3; [lia|]. rewrite Ht. rewrite N.mul_1_l. exact D.
    + right. assert (r <= t); [|nia]. apply R3; [|exists r; lia]. destruct (N.eq_dec t 0); [subst; lia|lia].
Qed.

Definition undivided (n : N) (l : list nat) : bool := forallb (fun d => negb (n mod N.of_nat d =? 0)) l.

Lemma small_prime : forall n k, 1 < n -> n < N.of_nat k * N.of_nat k -> undivided n (seq 2 k) = true -> prime n.
Proof.
  intros n k Hn B U. destruct (least_factor n Hn) as (r & (R1 & R2) & D & [X|S]); [exact X|exfalso].
  unfold undivided in U. rewrite forallb_forall in U. specialize (U (N.to_nat r)).
  assert (In (N.to_nat r) (seq 2 k)) as I by (apply in_seq; nia). specialize (U I). rewrite N2Nat.id in U.
  apply N.mod_divide in D; [|lia]. rewrite D in U. discriminate U.
Qed.
