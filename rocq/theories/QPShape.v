(** Proofs: what encoded text looks like. *)

From Coq Require Import List.
From Verif Require Import Base Utf8 QP SpecText SpecTag Utf8Proofs QPProofs QPDecode Lib.
Import ListNotations.
Open Scope N_scope.

Definition upper_hex (c : char) : Prop := 48 <= c <= 57 \/ 65 <= c <= 70.

(** every equals sign is followed by two upper-case hex digits *)
Definition equals_ok (s : str) : Prop :=
  forall a b, s = a ++ 61 :: b -> exists h l rest, b = h :: l :: rest /\ upper_hex h /\ upper_hex l.

Lemma equals_other : forall c s, c <> 61 -> equals_ok s -> equals_ok (c :: s).
Proof. intros c s H K [|x a] b E; cbn in E; [congruence|]. injection E as -> ->. exact (K a b eq_refl). Qed.

Lemma equals_escape : forall b s, is_byte b -> equals_ok s -> equals_ok (hex_escape b ++ s).
Proof.
  intros b s B K. assert (upper_hex (hex_char (b / 16))) as H1.
  { apply hex_char_range. unfold is_byte in B. apply N.div_lt_upper_bound; lia. }
  assert (upper_hex (hex_char (b mod 16))) as H2 by (apply hex_char_range; apply N.mod_lt; lia).
  unfold hex_escape. cbn [app]. intros [|x a] t E; cbn in E.
  - injection E as <-. eauto 7.
  - injection E as _ E. revert a t E. change (equals_ok (hex_char (b / 16) :: hex_char (b mod 16) :: s)).
    unfold upper_hex in *. apply equals_other; [lia|]. apply equals_other; [lia|exact K].
Qed.

Lemma equals_escapes : forall bs s, Forall is_byte bs -> equals_ok s -> equals_ok (flat_map hex_escape bs ++ s).
Proof.
  induction bs as [|b bs IH]; intros s B K; [exact K|]. inversion B; subst. cbn [flat_map]. rewrite <- app_assoc.
  apply equals_escape; auto.
Qed.

Theorem encoding_equals : forall special ao bs s, qp_encoding special ao bs s -> Forall is_byte bs -> equals_ok s.
Proof.
  induction 1 as [|c bs s Sc L E IH|c bs s Sc L E IH|b bs s N E IH]; intros B.
  - intros [|x a] b E; discriminate E.
  - apply Forall_app in B. apply equals_other; [|apply IH, B]. destruct L as [L _]. unfold dkim_safe in L. lia.
  - apply Forall_app in B. apply equals_escapes; [apply utf8_char_bytes; exact Sc|apply IH, B].
  - inversion B; subst. apply equals_escape; auto.
Qed.

Theorem encoding_value : forall special ao bs s, qp_encoding special ao bs s -> Forall is_byte bs -> s = [] \/ tag_value_text s.
Proof.
  intros special ao bs s E B. assert (Forall valchar s) as V.
  { apply Forall_forall. intros c Hc. destruct (encoding_chars _ _ _ _ B E c Hc) as [X|(_ & X & _)];
      unfold hex_or_eq, dkim_safe, valchar in *; lia. }
  clear E B. destruct s as [|c s]; [left; reflexivity|right]. revert c V. induction s as [|d s IH]; intros c V; inversion V; subst.
  - constructor; assumption.
  - apply (tv_cons c [] (d :: s)); [assumption|left; reflexivity|auto].
Qed.
