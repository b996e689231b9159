(** Proofs about when the rest of the body does not matter. *)

From Coq Require Import String List Permutation.
From Verif Require Import Base Utf8 Canon BodyHash Header TagList Domain Signature KeyRecord Crypto Format Sign Verify
  SpecText SpecCanon SpecHash SpecHeader SpecTag SpecDomain SpecSig SpecRecord SpecSign SpecVerify SpecStop
  CanonProofs BodyHashProofs HeaderProofs SignProofs VerifyProofs VerifyRun VerifyFacts Lib.
Import ListNotations.
Open Scope N_scope.

(** ** The canonicalizer *)

Definition shape (p : list byte) (bc : BodyCanon) : Prop :=
  (bc_blank_line bc = false -> bc_empty_lines bc = O)
  /\ match bc_state bc with
     | SInit | SCrLf => bc_blank_line bc = true
     | SByte => bc_blank_line bc = false
     | SCr | SWspCr => ends_in_cr p
     | SWsp => True
     end.

Lemma shape_step : forall bc p b out bc', shape p bc -> canon_step bc b = Val (out, bc') -> shape (p ++ [b]) bc'.
Proof.
  intros [kind st blank empty] p b out bc' [H1 H2] S. cbn [bc_blank_line bc_empty_lines bc_state] in *.
  assert (forall x, (x =? CR) = true -> ends_in_cr (p ++ [x])) as X. { intros x Hx. apply N.eqb_eq in Hx. subst x. exists p. reflexivity. }
  unfold canon_step, step_simple, step_relaxed, line_end, flush_empty_lines, set_state in S.
  cbn [bc_kind bc_state bc_blank_line bc_empty_lines] in S.
  specialize (X b). unfold shape.
  destruct kind, st;
    repeat match type of S with
    | context [if ?c then _ else _] => let e := fresh "e" in destruct c eqn:e
    end; try discriminate S; injection S as _ <-; cbn [bc_kind bc_state bc_blank_line bc_empty_lines];
    rewrite ?negb_false_iff in *; try solve [split; [auto; try discriminate|auto]].
Qed.

Lemma run_shape : forall alg p o bc, run alg p o bc -> shape p bc.
Proof.
  intros alg p. induction p as [|b p IH] using rev_ind; intros o bc R.
  - injection R as _ <-. split; [discriminate|reflexivity].
  - destruct (run_total alg p) as (o1 & bc1 & R1). unfold run in R, R1. rewrite canonicalize_chunk_app, R1 in R. cbn [bind canonicalize_chunk] in R.
    destruct (canon_step bc1 b) as [[o2 bc2]|] eqn:S; cbn [bind] in R; [|discriminate]. injection R as _ <-.
    eapply shape_step; [eapply IH; exact R1|exact S].
Qed.

Lemma run_kind : forall alg p o bc, run alg p o bc -> bc_kind bc = alg.
Proof.
  intros [] p o bc R; [destruct (simple_run p) as (o' & bc' & H & K & _)|destruct (relaxed_run p) as (o' & bc' & H & K & _)];
    destruct (run_det _ _ _ _ _ _ R H) as [_ ->]; exact K.
Qed.

(** what the canonical body is when [rest] follows *)
Lemma run_rest : forall alg p o bc rest o2 bc2 fin, run alg p o bc -> canonicalize_chunk bc rest = Val (o2, bc2) -> bc_finish bc2 = Val fin ->
  canonical_body alg (p ++ rest) = o ++ o2 ++ fin.
Proof.
  intros alg p o bc rest o2 bc2 fin R H F. destruct (canonicalize_body_run _ _ _ _ (run_app _ _ _ _ _ _ _ R H)) as (fin' & F' & ->).
  rewrite F in F'. injection F' as <-. rewrite app_assoc. reflexivity.
Qed.

Lemma output_certain : forall alg p o bc n, run alg p o bc -> n <= N.of_nat (length o) -> certain alg p n.
Proof.
  intros alg p o bc n R L. exists (firstn (N.to_nat n) o). split; [rewrite firstn_length; lia|]. intros rest.
  destruct (run_step _ _ _ _ rest R) as (o2 & bc2 & H). destruct (canonicalize_body_run _ _ _ _ (run_app _ _ _ _ _ _ _ R H)) as (fin & _ & ->).
  exists (skipn (N.to_nat n) o ++ o2 ++ fin). rewrite <- app_assoc. rewrite (app_assoc (firstn _ _)), firstn_skipn. reflexivity.
Qed.

Lemma prefix_two : forall (bytes o x y t t' : list byte) k, o ++ x = bytes ++ t -> o ++ y = bytes ++ t' ->
  nth_error x k <> nth_error y k -> (length bytes <= length o + k)%nat.
Proof.
  intros bytes o x y t t' k H1 H2 D. destruct (Nat.le_gt_cases (length bytes) (length o + k)) as [L|L]; [exact L|exfalso].
  apply D. transitivity (nth_error (o ++ x) (length o + k)).
  { rewrite nth_error_app2 by lia. f_equal. lia. }
  transitivity (nth_error (o ++ y) (length o + k)); [|rewrite nth_error_app2 by lia; f_equal; lia].
  rewrite H1, H2, !nth_error_app1 by lia. reflexivity.
Qed.

Lemma certain_output : forall alg p o bc n, run alg p o bc -> certain alg p n ->
  n <= N.of_nat (length o) + 1 /\ (~ ends_in_cr p -> n <= N.of_nat (length o)).
Proof.
  intros alg p o bc n R (bytes & <- & Ce).
  assert (forall rest o2 bc2 fin, canonicalize_chunk bc rest = Val (o2, bc2) -> bc_finish bc2 = Val fin -> exists tail, o ++ o2 ++ fin = bytes ++ tail) as Go.
  { intros rest o2 bc2 fin H F. rewrite <- (run_rest _ _ _ _ _ _ _ _ R H F). apply Ce. }
  assert (forall rest bc2, canonicalize_chunk bc rest = Val ([], bc2) -> bc_finish bc2 = Val [] -> (length bytes <= length o)%nat) as Stop.
  { intros rest bc2 H F. destruct (Go _ _ _ _ H F) as (tail & T). cbn [app] in T. rewrite app_nil_r in T. rewrite T, app_length. lia. }
  assert (forall k rest o2 bc2 fin rest' o2' bc2' fin', canonicalize_chunk bc rest = Val (o2, bc2) -> bc_finish bc2 = Val fin ->
    canonicalize_chunk bc rest' = Val (o2', bc2') -> bc_finish bc2' = Val fin' -> nth_error (o2 ++ fin) k <> nth_error (o2' ++ fin') k ->
    (length bytes <= length o + k)%nat) as Two.
  { intros k rest o2 bc2 fin rest' o2' bc2' fin' H F H' F' D. destruct (Go _ _ _ _ H F) as (t & T). destruct (Go _ _ _ _ H' F') as (t' & T').
    exact (prefix_two bytes o (o2 ++ fin) (o2' ++ fin') t t' k T T' D). }
  destruct (run_shape _ _ _ _ R) as [S1 S2]. pose proof (run_kind _ _ _ _ R) as K.
  destruct bc as [kind st blank empty]. cbn [bc_kind bc_state bc_blank_line bc_empty_lines] in *. subst kind.
  assert ((length bytes <= length o)%nat \/ ends_in_cr p /\ (length bytes <= length o + 1)%nat) as X.
  2: { destruct X as [X|[X Y]]; (split; [lia|]); intros Nc; [lia|exfalso; exact (Nc X)]. }
  destruct st.
  - subst blank. left. destruct alg; [eapply (Stop [13; 10])|eapply (Stop [])]; reflexivity.
  - subst blank. left. destruct alg; eapply (Stop []); reflexivity.
  - right. split; [exact S2|]. destruct blank.
    + assert ((length bytes <= length o)%nat); [|lia]. destruct alg; eapply (Stop [10]); reflexivity.
    + rewrite (S1 eq_refl) in *. destruct alg; eapply (Two 1%nat [10] _ _ _ [97]); try reflexivity; discriminate.
  - destruct alg.
    + exfalso. destruct (canonicalize_body_run _ _ _ _ R) as (fin & F & _). discriminate F.
    + left. destruct blank; [eapply (Stop [13; 10]); reflexivity|]. rewrite (S1 eq_refl) in *.
      replace (length o) with (length o + 0)%nat by lia. eapply (Two 0%nat [13; 10] _ _ _ [97]); try reflexivity. discriminate.
  - destruct alg.
    + exfalso. destruct (canonicalize_body_run _ _ _ _ R) as (fin & F & _). discriminate F.
    + left. destruct blank; [eapply (Stop [10]); reflexivity|]. rewrite (S1 eq_refl) in *.
      replace (length o) with (length o + 0)%nat by lia. eapply (Two 0%nat [10] _ _ _ [97]); try reflexivity. discriminate.
  - subst blank. rewrite (S1 eq_refl) in *. left.
    replace (length o) with (length o + 0)%nat by lia. destruct alg; eapply (Two 0%nat [] _ _ _ [97]); try reflexivity; discriminate.
Qed.

(** A CR that does not belong to an empty line is certain, but held back. *)
Lemma held_cr : forall alg p o bc, run alg p o bc -> bc_state bc = SCr -> bc_blank_line bc = false ->
  certain alg p (N.of_nat (length o) + 1).
Proof.
  intros alg p o bc R S B. exists (o ++ [13]). split; [rewrite app_length; cbn [length]; lia|]. intros rest.
  destruct (run_shape _ _ _ _ R) as [S1 _]. specialize (S1 B). pose proof (run_kind _ _ _ _ R) as K.
  destruct (run_step _ _ _ _ rest R) as (o2 & bc2 & H). destruct (canonicalize_body_run _ _ _ _ (run_app _ _ _ _ _ _ _ R H)) as (fin & F & ->).
  enough (exists t, o2 ++ fin = 13 :: t) as (t & T) by (exists t; rewrite <- !app_assoc, T; reflexivity).
  destruct bc as [kind st blank empty]. cbn [bc_kind bc_state bc_blank_line bc_empty_lines] in *. subst kind st blank empty.
  destruct rest as [|b rest].
  - injection H as <- <-. destruct alg; injection F as <-; eexists; reflexivity.
  - cbn [canonicalize_chunk] in H.
    enough (forall out bc1, canon_step (mkBodyCanon alg SCr false 0) b = Val (out, bc1) -> exists u, out = 13 :: u) as X.
    { destruct (canon_step (mkBodyCanon alg SCr false 0) b) as [[out bc1]|] eqn:Y; cbn [bind] in H; [|discriminate H].
      destruct (canonicalize_chunk bc1 rest) as [[out' bc3]|]; cbn [bind] in H; [|discriminate H]. injection H as <- _.
      destruct (X _ _ eq_refl) as (u & ->). eexists. reflexivity. }
    intros out bc1. unfold canon_step. destruct alg; cbn [bc_kind]; unfold step_simple, step_relaxed, line_end, flush_empty_lines, set_state; cbn [bc_state bc_blank_line bc_empty_lines crlfs app];
      repeat match goal with |- context [if ?c then _ else _] => destruct c end; intros Y; injection Y as <- _; eexists; reflexivity.
Qed.

Lemma satisfied_iff : forall fot p l alg canon, satisfied fot p (Some l, alg, canon) <->
  exists o bc, run canon p o bc /\ deciding fot l <= N.of_nat (length o).
Proof.
  intros fot p l alg canon. unfold satisfied, deciding. split.
  - intros (n & o & bc & X & R & L). injection X as <-. exists o, bc. split; [exact R|]. destruct fot; lia.
  - intros (o & bc & R & L). exists l, o, bc. split; [reflexivity|]. split; [exact R|]. destruct fot; lia.
Qed.

Lemma satisfied_some : forall fot p limit alg canon, satisfied fot p (limit, alg, canon) -> exists l, limit = Some l.
Proof. intros fot p limit alg canon (n & o & bc & -> & _). eauto. Qed.

Lemma satisfied_certain : forall fot p l alg canon, satisfied fot p (Some l, alg, canon) -> certain canon p (deciding fot l + 0).
Proof. intros fot p l alg canon H. apply satisfied_iff in H as (o & bc & R & L). eapply output_certain; [exact R|lia]. Qed.

Lemma certain_satisfied : forall fot p l alg canon, certain canon p (deciding fot l + 0) -> ~ ends_in_cr p -> satisfied fot p (Some l, alg, canon).
Proof.
  intros fot p l alg canon H N. apply satisfied_iff. destruct (run_total canon p) as (o & bc & R). exists o, bc. split; [exact R|].
  destruct (certain_output _ _ _ _ _ R H) as [_ X]. specialize (X N). lia.
Qed.

Lemma certain_more_satisfied : forall fot p l alg canon, certain canon p (deciding fot l + 1) -> satisfied fot p (Some l, alg, canon).
Proof.
  intros fot p l alg canon H. apply satisfied_iff. destruct (run_total canon p) as (o & bc & R). exists o, bc. split; [exact R|].
  destruct (certain_output _ _ _ _ _ R H) as [X _]. lia.
Qed.

(** ** Hashing *)

(** the stance after the last chunk *)
Lemma stance_iff : forall forbid keys order chunks c, let b := fold_left bhb_register keys (bhb_new forbid) in
  Permutation order (bhb_registrations b) ->
  exists sts bh1 st bh2, hash_chunks (bhb_build b order) chunks = Val (sts, bh1) /\ hash_chunk bh1 c = Val (st, bh2)
    /\ (st = Done <-> forall k, In k keys -> satisfied forbid (concat (chunks ++ [c])) k).
Proof.
  intros forbid keys order chunks c b P.
  destruct (hash_chunks_ok _ _ chunks [] _ (bh_new_ok b order)) as (sts & bh1 & H1 & H2 & _).
  destruct (hash_chunk_ok _ _ _ _ c H2) as (bh2 & I1 & _). eexists sts, bh1, _, bh2. split; [exact H1|]. split; [exact I1|].
  match type of I1 with _ = Val (?st, _) =>
    assert (hash_chunks (bhb_build b order) (chunks ++ [c]) = Val (sts ++ [st], bh2)) as Hc end.
  { rewrite hash_chunks_app, H1. cbn [bind hash_chunks]. rewrite I1. reflexivity. }
  pose proof (done_iff _ _ _ _ _ _ Hc) as X. rewrite last_last in X. rewrite X. unfold b at 1. rewrite register_all_fot. cbn [bhb_fail_on_truncate bhb_new].
  rewrite Forall_forall.
  assert (forall k, In k order <-> In k keys) as Y.
  { intros k. transitivity (In k (bhb_registrations b)); [split; apply Permutation_in; [exact P|symmetry; exact P]|].
    unfold b. rewrite register_all_in. cbn. tauto. }
  split; intros Z k Hk; apply Z; apply Y; exact Hk.
Qed.

Section WithEnv.
Variable E : Env.
Notation C := (env_crypto E).

(** ** The verifier *)

Lemma marked_iff : forall answer headers config clock i name value m sig,
  marked E answer headers config clock (i, (name, value)) m ->
  (m = Some sig <-> key_confirmed E answer headers config (clock i) name value sig).
Proof.
  intros answer headers config clock i name value m sig M. cbn [marked] in M. split.
  - intros ->. exact M.
  - intros (s & p & txts & r & P & L & A & O). destruct m as [sig'|].
    + destruct M as (s' & _ & _ & _ & P' & _). destruct (in_progress_det _ _ _ _ _ _ _ _ _ P P') as [_ ->]. reflexivity.
    + exfalso. destruct M as [(s' & e & Rd)|[(s' & sig' & e & Rd & F)|(s' & sig' & p' & P' & L' & M)]].
      * destruct P as [P _]. destruct (signature_read_det _ _ _ _ _ _ P Rd) as [_ X]. discriminate X.
      * destruct P as [P F']. destruct (signature_read_det _ _ _ _ _ _ P Rd) as [_ X]. injection X as <-.
        pose proof (first_of_det _ _ _ _ F F') as X. discriminate X.
      * destruct (in_progress_det _ _ _ _ _ _ _ _ _ P P') as [<- <-]. pose proof (lookup_pair_det _ _ _ _ L L') as <-.
        rewrite A in M. destruct M as [(k & X)|[X|(txts' & r' & e & X & O')]]; [discriminate X| |].
        -- injection X as ->. inversion O.
        -- injection X as <-. destruct (records_outcome_det _ _ _ _ _ _ _ _ _ _ _ O O') as [_ Y]. discriminate Y.
Qed.

Lemma verifier_stance : forall w headers config v qs t answer chunks c, world_ok w -> header_fields headers ->
  verify_header E w headers config = Val (Some (v, lookup_log (w_resolver w) 0 0 qs, t)) -> answered (w_resolver w) qs answer ->
  exists v1 st v2, verifier_chunks v chunks = Val v1 /\ verifier_chunk v1 c = Val (st, v2)
    /\ (st = Done <-> forall i name value sig, In (i, (name, value)) (examined config headers) ->
          key_confirmed E answer headers config (w_clock w i) name value sig ->
          satisfied (cf_forbid_unsigned_content config) (concat (chunks ++ [c])) (VerifyRun.key_of sig)).
Proof.
  intros w headers config v qs t answer chunks c W Hh V An.
  destruct (verify_spec_keys E w headers config W Hh) as [[_ X]|(_ & v' & qs' & V' & _ & _ & (keys & order & B & P & M) & _)]; [congruence|].
  rewrite V in V'. injection V' as <- Q _. apply lookup_log_inj in Q as <-. destruct (M answer An) as (ms & Ks & F). clear M.
  destruct (stance_iff (cf_forbid_unsigned_content config) keys order chunks c P) as (sts & bh1 & st & bh2 & H1 & H2 & D).
  rewrite <- B in H1. eexists _, st, _. split; [eapply verifier_chunks_hash; exact H1|].
  split; [unfold verifier_chunk; cbn [vf_body_hasher]; rewrite H2; reflexivity|]. rewrite D, Ks. split.
  - intros X i name value sig I Cf. apply X. apply in_flat_map. destruct (Forall2_in_l _ _ _ _ _ _ F I) as (m & Im & Mm).
    exists m. split; [exact Im|]. pose proof (marked_iff _ _ _ _ _ _ _ _ sig Mm) as Mi. apply Mi in Cf as ->. left. reflexivity.
  - intros X k Hk. apply in_flat_map in Hk as (m & Im & Km). destruct m as [sig|]; [|destruct Km]. destruct Km as [<-|[]].
    destruct (Forall2_in_r _ _ _ _ _ _ F Im) as ([i [name value]] & I & Mm). eapply X; [exact I|].
    pose proof (marked_iff _ _ _ _ _ _ _ _ sig Mm) as Mi. apply Mi. reflexivity.
Qed.

Theorem verifier_stop : forall w headers config v qs t answer chunks c, world_ok w -> header_fields headers ->
  verify_header E w headers config = Val (Some (v, lookup_log (w_resolver w) 0 0 qs, t)) -> answered (w_resolver w) qs answer ->
  exists v1 st v2, verifier_chunks v chunks = Val v1 /\ verifier_chunk v1 c = Val (st, v2)
    /\ (st = Done -> decided E 0 answer headers config (w_clock w) (concat (chunks ++ [c])))
    /\ (decided E 0 answer headers config (w_clock w) (concat (chunks ++ [c])) -> ~ ends_in_cr (concat (chunks ++ [c])) -> st = Done)
    /\ (decided E 1 answer headers config (w_clock w) (concat (chunks ++ [c])) -> st = Done).
Proof.
  intros w headers config v qs t answer chunks c W Hh V An.
  destruct (verifier_stance w headers config v qs t answer chunks c W Hh V An) as (v1 & st & v2 & H1 & H2 & D).
  exists v1, st, v2. split; [exact H1|]. split; [exact H2|]. rewrite D. clear D. split; [|split].
  - intros X i name value sig I Cf. specialize (X i name value sig I Cf). unfold VerifyRun.key_of in X.
    destruct (satisfied_some _ _ _ _ _ X) as (l & L). rewrite L in X. exists l. split; [exact L|]. eapply satisfied_certain. exact X.
  - intros X N i name value sig I Cf. destruct (X i name value sig I Cf) as (l & L & Ce). unfold VerifyRun.key_of. rewrite L.
    apply certain_satisfied; assumption.
  - intros X i name value sig I Cf. destruct (X i name value sig I Cf) as (l & L & Ce). unfold VerifyRun.key_of. rewrite L.
    apply certain_more_satisfied. exact Ce.
Qed.

Lemma verifier_chunks_app : forall a b v, verifier_chunks v (a ++ b) = let! v1 := verifier_chunks v a in verifier_chunks v1 b.
Proof.
  induction a as [|c a IH]; intros b v; [reflexivity|]. cbn [app verifier_chunks]. destruct (verifier_chunk v c) as [[st v1]|]; cbn [bind]; [apply IH|reflexivity].
Qed.

(** the results at that time *)
Theorem verifier_stop_results : forall w headers config v log t chunks v1 c v2 more,
  verify_header E w headers config = Val (Some (v, log, t)) ->
  verifier_chunks v chunks = Val v1 -> verifier_chunk v1 c = Val (Done, v2) ->
  (let! rs := verifier_finish E v2 in Val (Some rs)) = verify_message E w headers config (chunks ++ c :: more).
Proof.
  intros w headers config v log t chunks v1 c v2 more V H1 H2. unfold verify_message. rewrite V. cbn [bind].
  rewrite verifier_chunks_app, H1. cbn [bind verifier_chunks]. rewrite H2. cbn [bind].
  rewrite (verifier_done E _ _ _ _ _ _ _ _ _ _ more V H1 H2). reflexivity.
Qed.

(** ** The signer *)

Theorem signer_stop : forall order headers rs s chunks c, (forall l, Permutation (order l) l) -> Forall (request_typed E) rs ->
  prepare_signing E order headers rs = Val (Ok s) ->
  exists s1 st s2, signer_chunks E s chunks = Val s1 /\ signer_chunk E s1 c = Val (st, s2)
    /\ (st = Done -> requests_decided E 0 rs (concat (chunks ++ [c])))
    /\ (requests_decided E 0 rs (concat (chunks ++ [c])) -> ~ ends_in_cr (concat (chunks ++ [c])) -> st = Done)
    /\ (requests_decided E 1 rs (concat (chunks ++ [c])) -> st = Done).
Proof.
  intros order headers rs s chunks c Or T Pr. destruct (prepare_spec E order headers rs T) as (e & _ & X). rewrite Pr in X.
  destruct e as [e|]; [discriminate X|]. cbv zeta in X. injection X as ->.
  destruct (stance_iff false (map (SignProofs.key_of E) rs) _ chunks c (Or _)) as (sts & bh1 & st & bh2 & H1 & H2 & D).
  eexists _, st, _. split; [eapply signer_chunks_hash; exact H1|].
  split; [unfold signer_chunk; cbn [sg_body_hasher]; rewrite H2; reflexivity|]. rewrite D. clear D H1 H2.
  unfold requests_decided. set (p := concat (chunks ++ [c])). clearbody p.
  assert (forall r, SignProofs.key_of E r = (limit_of E r, alg_hash (r_algorithm E r), c_body (r_canonicalization E r))) as Kr by reflexivity.
  split; [|split].
  - intros X r Hr. specialize (X _ (in_map _ _ _ Hr)). rewrite Kr in X. destruct (satisfied_some _ _ _ _ _ X) as (l & L). rewrite L in X.
    exists l. split; [unfold limit_of in L; destruct (r_body_length E r); congruence|]. apply (satisfied_certain false _ _ _ _ X).
  - intros X N k Hk. apply in_map_iff in Hk as (r & <- & Hr). destruct (X r Hr) as (l & L & Ce). rewrite Kr. unfold limit_of. rewrite L.
    apply certain_satisfied; assumption.
  - intros X k Hk. apply in_map_iff in Hk as (r & <- & Hr). destruct (X r Hr) as (l & L & Ce). rewrite Kr. unfold limit_of. rewrite L.
    apply certain_more_satisfied. exact Ce.
Qed.

Lemma signer_chunks_app : forall a b s, signer_chunks E s (a ++ b) = let! s1 := signer_chunks E s a in signer_chunks E s1 b.
Proof.
  induction a as [|c a IH]; intros b s; [reflexivity|]. cbn [app signer_chunks]. destruct (signer_chunk E s c) as [[st s1]|]; cbn [bind]; [apply IH|reflexivity].
Qed.

Theorem signer_stop_results : forall order headers rs s chunks s1 c s2 more clock,
  prepare_signing E order headers rs = Val (Ok s) ->
  signer_chunks E s chunks = Val s1 -> signer_chunk E s1 c = Val (Done, s2) ->
  (let! results := sign E clock s2 in Val (Ok results)) = sign_message E order headers rs (chunks ++ c :: more) clock.
Proof.
  intros order headers rs s chunks s1 c s2 more clock P H1 H2. unfold sign_message. rewrite P. cbn [bind].
  rewrite signer_chunks_app, H1. cbn [bind signer_chunks]. rewrite H2. cbn [bind].
  rewrite (signer_done E _ _ _ _ _ _ _ _ more P H1 H2). reflexivity.
Qed.

End WithEnv.
