(** Proofs: when exactly all continuation lines of the signer's output start with
    the indentation configured. *)

From Coq Require Import String List Permutation.
From Verif Require Import Base Utf8 Canon BodyHash Header Domain Signature Crypto TagList Format Sign
  SpecText SpecCanon SpecHash SpecHeader SpecTag SpecDomain SpecSig SpecFormat SpecSign SpecOutput
  Lib Utf8Proofs Base64Proofs HeaderProofs DomainProofs QPProofs QPDecode TagListProofs HeaderCanonProofs
  SigProofs FormatProofs SignProofs OutputProofs OutputParse.
Import ListNotations.
Open Scope N_scope.

(** every line break is followed by an indentation and visible text *)
Definition breaks (Q : str -> Prop) (s : str) : Prop :=
  forall a b, s = a ++ [13; 10] ++ b -> exists w c r, b = w ++ c :: r /\ Q w /\ visible c.

Lemma text_break : forall first (more : list str) a b, Forall (fun c => visible c \/ c = 32 \/ c = 9) first ->
  unlines first more = a ++ [13; 10] ++ b ->
  exists l more', more = l :: more' /\ (a = first /\ b = unlines l more' \/ exists a', unlines l more' = a' ++ [13; 10] ++ b).
Proof.
  intros first more a b H E. assert (~ In 13 first) as N. { intros X. rewrite Forall_forall in H. specialize (H _ X). unfold visible in H. lia. }
  unfold unlines in E. apply app_eq_app in E as (l & [[E1 E2]|[E1 E2]]).
  - destruct l as [|c l].
    + rewrite app_nil_r in E1. cbn [app] in E2. destruct more as [|m more]; [discriminate E2|]. cbn [map concat app] in E2. injection E2 as E2.
      exists m, more. split; [reflexivity|]. left. split; [symmetry; exact E1|exact E2].
    + cbn [app] in E2. injection E2 as <- E2. exfalso. apply N. rewrite E1. apply in_app_iff. right. left. reflexivity.
  - destruct more as [|m more]; [cbn [map concat] in E2; destruct l; discriminate E2|]. exists m, more. split; [reflexivity|].
    change (concat (map (fun l => [13; 10] ++ l) (m :: more))) with ([13; 10] ++ unlines m more) in E2.
    destruct l as [|c l].
    + cbn [app] in E2. injection E2 as E2. left. rewrite app_nil_r in E1. split; [exact E1|symmetry; exact E2].
    + cbn [app] in E2. injection E2 as <- E2. right. destruct l as [|d l].
      * cbn [app] in E2. discriminate E2.
      * cbn [app] in E2. injection E2 as <- E2. exists l. exact E2.
Qed.

(** a run of blanks before a visible character is the only one *)
Lemma blanks_same : forall w c r w' c' r', wsps w -> wsps w' -> visible c -> visible c' -> w ++ c :: r = w' ++ c' :: r' -> w = w'.
Proof.
  induction w as [|x w IH]; intros c r [|x' w'] c' r' H H' V V' E; cbn [app] in E; [reflexivity| | |].
  - injection E as -> E. inv H'. unfold visible in V. lia.
  - injection E as -> E. inv H. unfold visible in V'. lia.
  - injection E as -> E. inv H. inv H'. f_equal. eapply IH; [| |exact V|exact V'|exact E]; assumption.
Qed.

(** after a line break in such a text, there are blanks and visible text *)
Lemma vtext_break : forall s, vtext ofws visible s -> forall a b, s = a ++ [13; 10] ++ b ->
  exists w c r, b = w ++ c :: r /\ wsps w /\ visible c.
Proof.
  intros s H. induction H as [|f c s Hf Hc Hs IH]; intros a b E; [destruct a; discriminate E|].
  assert (f ++ c :: s = a ++ 13 :: 10 :: b) as E' by exact E. clear E.
  apply app_eq_app in E' as (l & [[E1 E2]|[E1 E2]]).
  - destruct l as [|x l]; [cbn [app] in E2; injection E2 as <- _; unfold visible in Hc; lia|].
    cbn [app] in E2. injection E2 as <- E2.
    assert (exists w0 w, wsps w0 /\ wsps w /\ f = w0 ++ 13 :: 10 :: w) as (w0 & w & W0 & W & F).
    { assert (In 13 f) as I by (rewrite E1; apply in_app_iff; right; left; reflexivity).
      assert (forall w, wsps w -> ~ In 13 w) as NW. { intros w Hw X. unfold wsps in Hw. rewrite Forall_forall in Hw. specialize (Hw _ X). lia. }
      destruct Hf as [->|(w & Hw & Wn & [->|(w0 & Hw0 & ->)])]; [destruct I|exfalso; revert I; apply NW; exact Hw|]. exists w0, w. auto. }
    assert (~ In 13 w0 /\ ~ In 13 w) as [N0 N1].
    { split; intros X; [unfold wsps in W0; rewrite Forall_forall in W0; specialize (W0 _ X)|unfold wsps in W; rewrite Forall_forall in W; specialize (W _ X)]; lia. }
    rewrite F in E1. assert (a = w0 /\ l = 10 :: w) as [-> ->].
    { symmetry in E1. clear - E1 N0 N1. apply app_eq_app in E1 as (k & [[X Y]|[X Y]]).
      - destruct k as [|y k]; [rewrite app_nil_r in X; cbn [app] in Y; injection Y as Y; auto|]. cbn [app] in Y. injection Y as <- Y. exfalso.
        assert (In 13 (10 :: w)) as I by (rewrite Y; apply in_app_iff; right; left; reflexivity). destruct I as [I|I]; [discriminate I|tauto].
      - destruct k as [|y k]; [rewrite app_nil_r in X; cbn [app] in Y; injection Y as Y; auto|]. cbn [app] in Y. injection Y as <- Y. exfalso.
        apply N0. rewrite X. apply in_app_iff. right. left. reflexivity. }
    cbn [app] in E2. injection E2 as ->. exists w, c, s. auto.
  - destruct l as [|x l].
    + cbn [app] in E2. injection E2 as E2 _. unfold visible in Hc. lia.
    + cbn [app] in E2. injection E2 as <- E2. eapply IH. exact E2.
Qed.

Section Indent.
Variable Q : str -> Prop.
Hypothesis HQ : forall w, Q w -> wsps w.

Lemma indented_breaks : forall s, indented Q s -> breaks Q s.
Proof using HQ.
  intros s (first & more & -> & H1 & H2) a b. revert first a b H1. induction H2 as [|l more Hl _ IH]; intros first a b H1 E.
  - destruct (text_break _ _ _ _ H1 E) as (? & ? & X & _). discriminate X.
  - destruct (text_break _ _ _ _ H1 E) as (l' & more' & X & Y). injection X as <- <-.
    destruct Hl as (w & c & r & -> & Qw & Vc & Hr). destruct Y as [[_ ->]|(a' & Y)].
    + exists w, c, (r ++ concat (map (fun l => [13; 10] ++ l) more)). split; [|auto]. unfold unlines. rewrite <- app_assoc. reflexivity.
    + eapply IH; [|exact Y]. apply Forall_app. split; [|constructor; auto]. eapply Forall_impl; [|apply HQ; exact Qw]. cbn. tauto.
Qed.

Lemma breaks_vtext : forall s, vtext ofws visible s -> breaks Q s -> vtext (fold_of Q) visible s.
Proof using HQ.
  intros s H. induction H as [|f c s Hf Hc Hs IH]; intros B; [constructor|]. constructor; [|exact Hc|].
  - destruct Hf as [->|(w & Hw & Wn & [->|(w0 & Hw0 & ->)])]; [left; constructor|left; exact Hw|].
    right. exists w0, w. split; [exact Hw0|]. split; [|reflexivity].
    destruct (B w0 (w ++ c :: s)) as (w' & c' & r' & E & Q' & V'). { rewrite <- !app_assoc. reflexivity. }
    rewrite (blanks_same w c s w' c' r' Hw (HQ _ Q') Hc V' E). exact Q'.
  - apply IH. intros a b ->. apply (B (f ++ c :: a) b). rewrite <- app_assoc. reflexivity.
Qed.

Lemma breaks_infix : forall A v B, breaks Q (A ++ v ++ B) -> vtext ofws visible v -> breaks Q v.
Proof using HQ.
  intros A v B H V a b E. destruct (vtext_break v V a b E) as (w & c & r & -> & Hw & Hc).
  destruct (H (A ++ a) ((w ++ c :: r) ++ B)) as (w' & c' & r' & E' & Q' & V').
  { rewrite E. rewrite <- !app_assoc. reflexivity. }
  exists w, c, r. split; [reflexivity|]. split; [|exact Hc]. rewrite <- app_assoc in E'. cbn [app] in E'.
  rewrite (blanks_same w c _ w' c' r' Hw (HQ _ Q') Hc V' E'). exact Q'.
Qed.

End Indent.

Lemma spec_infix : forall s n v, tag_spec_text s n v -> exists A B, s = A ++ v ++ B.
Proof.
  intros s n v H. destruct H as [f1 f2 f3 n|f1 f2 f3 f4 n v].
  - exists (f1 ++ n ++ f2 ++ [61] ++ f3), []. rewrite app_nil_r. reflexivity.
  - exists (f1 ++ n ++ f2 ++ [61] ++ f3), f4. rewrite <- !app_assoc. reflexivity.
Qed.

Lemma list_infix : forall s tags n v, tag_list_text s tags -> In (n, v) tags -> exists A B, s = A ++ v ++ B.
Proof.
  intros s tags n v H. induction H as [s m w Hs|s m w Hs|s m w t tags Hs Ht IH]; intros I.
  - destruct I as [I|[]]. injection I as -> ->. eapply spec_infix; exact Hs.
  - destruct I as [I|[]]. injection I as -> ->. destruct (spec_infix _ _ _ Hs) as (A & B & ->). exists A, (B ++ [59]).
    rewrite <- !app_assoc. reflexivity.
  - destruct I as [I|I].
    + injection I as -> ->. destruct (spec_infix _ _ _ Hs) as (A & B & ->). exists A, (B ++ [59] ++ t). rewrite <- !app_assoc. reflexivity.
    + destruct (IH I) as (A & B & ->). exists (s ++ [59] ++ A), B. rewrite <- !app_assoc. reflexivity.
Qed.

(** All lines are indented as configured exactly if those of the additional tags are. *)
Theorem indent_exact : forall E now r headers body o u pre post sig n b64, idna_ok (env_idna E) ->
  output_of E now r headers body o u pre post sig n b64 ->
  let Q := fun w => w = of_indentation (r_format E r) in
  indented Q (so_header_value o) <-> Forall (indented Q) (map snd (r_ext_tags E r)).
Proof.
  intros E now r headers body o u pre post sig n b64 IO H Q.
  pose proof (oo_sound _ _ _ _ _ _ _ _ _ _ _ _ H) as S.
  pose proof (oo_format _ _ _ _ _ _ _ _ _ _ _ _ H) as F. pose proof (oo_formattable _ _ _ _ _ _ _ _ _ _ _ _ H) as FU.
  assert (forall w, Q w -> wsps w) as HQ. { intros w ->. apply F. }
  assert (u_ext_tags u = r_ext_tags E r) as X.
  { destruct (oo_u _ _ _ _ _ _ _ _ _ _ _ _ H) as (? & ? & ? & ? & _ & _ & _ & ->). reflexivity. }
  assert (forall v, In v (map snd (r_ext_tags E r)) -> vtext ofws visible v) as V.
  { intros v Hv. rewrite <- X in Hv. apply in_map_iff in Hv as ((m & y) & Ey & Hi). cbn in Ey. subst y.
    destruct (su_ext _ _ S _ _ Hi) as (_ & [->|Y] & _); [constructor|]. apply value_vtext in Y. exact Y. }
  split.
  - intros I. apply indented_breaks in I; [|exact HQ]. apply Forall_forall. intros v Hv.
    destruct (output_tags _ _ _ _ _ _ _ _ _ _ _ _ IO H) as (tags & Tm & ND & HP & Tn & TL).
    apply tag_list_ok in TL as [TL _].
    assert (exists m, In (m, v) tags) as (m & Hm).
    { pose proof Hv as Hv'. rewrite <- X in Hv'. apply in_map_iff in Hv' as ((m & y) & Ey & Hi). cbn in Ey. subst y. exists m.
      assert (In m (map fst tags)) as Z.
      { eapply Permutation_in; [symmetry; exact HP|]. unfold default_names. apply in_app_iff. right. apply in_map_iff. exists (m, v). auto. }
      apply in_map_iff in Z as ((m' & y) & Ey & Z). cbn in Ey. subst m'. destruct (su_ext _ _ S _ _ Hi) as (_ & _ & N2).
      rewrite Forall_forall in Tm. pose proof (Tm _ Z) as M. cbn [fst snd] in M.
      assert (In (m, y) (u_ext_tags u)) as K. { destruct M; try (exfalso; apply N2; cbn; tauto; fail). assumption. }
      rewrite (NoDup_fst_eq _ _ _ _ _ _ (su_ext_nodup _ _ S) Hi K). exact Z. }
    destruct (list_infix _ _ m v TL) as (A & B & EA).
    { unfold pairs_of. rewrite map_map. apply in_map_iff. exists (m, v). auto. }
    rewrite EA in I. apply vtext_lines. apply breaks_vtext; [exact HQ|auto|]. eapply breaks_infix; [exact HQ|exact I|auto].
  - intros I. rewrite (oo_o _ _ _ _ _ _ _ _ _ _ _ _ H). cbn [so_header_value].
    destruct (whole_laid _ u (r_format E r) _ pre post n b64 FU F (oo_parts _ _ _ _ _ _ _ _ _ _ _ _ H)) as (ps & Hps & L).
    apply vtext_lines. eapply laid_vtext; [| |exact L].
    + intros j s. apply sep_fold. reflexivity.
    + eapply sound_visible; [exact IO|exact S|left; constructor| | |exact Hps].
      * apply (base64_visible _ _ (oo_bytes _ _ _ _ _ _ _ _ _ _ _ _ H) (oo_b64 _ _ _ _ _ _ _ _ _ _ _ _ H)).
      * rewrite X. intros v Hv. rewrite Forall_forall in I. apply breaks_vtext; [exact HQ|auto|]. apply indented_breaks; [exact HQ|]. apply I. exact Hv.
Qed.
