(** Proofs about verification: the whole process. *)

From Coq Require Import String List Sorted Permutation.
From Verif Require Import Base Utf8 Canon BodyHash Header TagList Domain Signature KeyRecord Crypto Verify
  SpecText SpecCanon SpecHash SpecHeader SpecTag SpecDomain SpecSig SpecRecord SpecSign SpecVerify
  Lib Utf8Proofs HeaderProofs HeaderCanonProofs BodyHashProofs DomainProofs TagListProofs SigProofs RecordProofs SignProofs
  VerifyProofs VerifyKeys.
Import ListNotations.
Open Scope N_scope.

Notation Answer := (IoResult (list (IoResult (list byte)))).

(** ** Lookups *)

Lemma spawn_all_spec : forall r (answer : str * str -> Answer) ps n t,
  (forall k p, nth_error (map fst ps) k = Some p -> answer p = rs_answer r (n + k) (key_name p)) ->
  exists set, spawn_all r n t ps = (set, lookups_end r n t (map fst ps))
    /\ map fst set = lookup_log r n t (map fst ps)
    /\ map snd set = map (fun g => (fst g, lookup_of (snd g))) (map (fun g => (snd g, answer (fst g))) ps).
Proof.
  intros r answer. induction ps as [|((d & s) & is) ps IH]; intros n t H; cbn [spawn_all map fst snd lookups_end lookup_log].
  - exists []. auto.
  - destruct (IH (S n) (t + rs_latency r n (key_name (d, s)))) as (set & H1 & H2 & H3).
    { intros k p Hk. replace (S n + k)%nat with (n + S k)%nat by lia. apply H. exact Hk. }
    change (query_name d s) with (key_name (d, s)). rewrite H1. eexists. split; [reflexivity|]. cbn [map fst snd]. rewrite H2, H3. split; [reflexivity|].
    f_equal. f_equal. unfold look_up_records, lookup_of. specialize (H 0%nat (d, s) eq_refl). rewrite Nat.add_0_r in H. rewrite H. reflexivity.
Qed.

Lemma answer_exists : forall r qs, NoDup qs -> exists answer, answered r qs answer.
Proof.
  intros r qs. unfold answered. cut (forall n, NoDup qs -> exists answer : str * str -> Answer, forall k p, nth_error qs k = Some p -> answer p = rs_answer r (n + k) (key_name p)).
  { intros H ND. exact (H 0%nat ND). }
  induction qs as [|q qs IH]; intros n ND.
  - exists (fun _ => Err NotFound). intros [|k] p H; discriminate.
  - inversion ND as [|? ? N1 N2]; subst. destruct (IH (S n) N2) as (answer & H).
    exists (fun p => if pair_eqb p q then rs_answer r n (key_name q) else answer p). intros [|k] p Hk; cbn in Hk.
    + injection Hk as ->. assert (pair_eqb p p = true) as -> by (apply pair_eqb_eq; reflexivity). rewrite Nat.add_0_r. reflexivity.
    + destruct (pair_eqb p q) eqn:X.
      * apply pair_eqb_eq in X. subst. exfalso. apply N1. eapply nth_error_In. exact Hk.
      * rewrite (H k p Hk). f_equal. lia.
Qed.

(** ** Body hashes *)

Lemma verifier_chunks_hash : forall cs v sts bh, hash_chunks (vf_body_hasher v) cs = Val (sts, bh) ->
  verifier_chunks v cs = Val (mkVerifier (vf_tasks v) bh).
Proof.
  induction cs as [|c cs IH]; intros v sts bh H; cbn [hash_chunks verifier_chunks] in *.
  - injection H as _ <-. destruct v; reflexivity.
  - unfold verifier_chunk. destruct (hash_chunk (vf_body_hasher v) c) as [[st b1]|]; cbn [bind] in *; [|discriminate].
    destruct (hash_chunks b1 cs) as [[sts1 b2]|] eqn:X; cbn [bind] in H; [|discriminate]. injection H as _ <-.
    apply (IH (mkVerifier (vf_tasks v) b1) sts1 b2 X).
Qed.

Section WithEnv.
Variable E : Env.
Notation C := (env_crypto E).
Notation idna := (env_idna E).

Definition len_ok (sig : DkimSig) : Prop := forall l, s_body_length sig = Some l -> l <= env_usize_max E.
Definition key_of (sig : DkimSig) : BodyHasherKey := (s_body_length sig, alg_hash (s_algorithm sig), c_body (s_canonicalization sig)).

Lemma body_key : forall sig, len_ok sig -> body_hasher_key (env_usize_max E) sig = Val (key_of sig).
Proof.
  intros sig H. unfold body_hasher_key, key_of. destruct (s_body_length sig) as [l|] eqn:L; [|reflexivity].
  assert (l <=? env_usize_max E = true) as -> by (apply N.leb_le; apply H; exact L). reflexivity.
Qed.

Definition done_task (t : VerifyTask) : Prop :=
  (exists e, vt_status t = Failed e) \/ (vt_status t = Successful /\ exists sig, vt_signature t = Some sig /\ len_ok sig).

Definition built (t : VerifyTask) : VerificationResult :=
  mkVResult (match vt_status t with Failed e => Failure e | _ => Success end) (vt_index t) (vt_signature t) (vt_key_record t).

Definition keys_of (t : VerifyTask) : list BodyHasherKey :=
  match vt_status t, vt_signature t with Successful, Some sig => [key_of sig] | _, _ => [] end.

Lemma build_tasks_spec : forall ts b, Forall done_task ts ->
  build_tasks E b ts = Val (map built ts, fold_left bhb_register (flat_map keys_of ts) b).
Proof.
  induction ts as [|t ts IH]; intros b F; [reflexivity|]. inversion F as [|? ? D F']; subst. cbn [build_tasks map flat_map].
  rewrite fold_left_app. destruct D as [(e & S)|(S & sig & G & L)].
  - assert (keys_of t = []) as -> by (unfold keys_of; rewrite S; reflexivity).
    assert (built t = mkVResult (Failure e) (vt_index t) (vt_signature t) (vt_key_record t)) as -> by (unfold built; rewrite S; reflexivity).
    rewrite S. cbn [bind fold_left]. rewrite (IH b F'). reflexivity.
  - assert (keys_of t = [key_of sig]) as -> by (unfold keys_of; rewrite S, G; reflexivity).
    assert (built t = mkVResult Success (vt_index t) (vt_signature t) (vt_key_record t)) as -> by (unfold built; rewrite S; reflexivity).
    rewrite S, G, (body_key sig L). cbn [bind fold_left]. rewrite (IH _ F'). reflexivity.
Qed.

(** the final result of a task *)
Definition final (config : Config) (body : list byte) (t : VerifyTask) : VerificationResult :=
  mkVResult (match vt_status t, vt_signature t with
             | Failed e, _ => Failure e
             | _, Some sig => body_status E config sig body
             | _, None => Success
             end) (vt_index t) (vt_signature t) (vt_key_record t).

Lemma finish_tasks_spec : forall config body results ts, Forall done_task ts ->
  (forall k, In k (flat_map keys_of ts) -> results_get results k = Some (expected_result (hash_fn C) (cf_forbid_unsigned_content config) k body)) ->
  finish_tasks (env_usize_max E) results (map built ts) = Val (map (final config body) ts).
Proof.
  intros config body results. induction ts as [|t ts IH]; intros F R; [reflexivity|]. inversion F as [|? ? D F']; subst. cbn [map finish_tasks flat_map] in *.
  rewrite IH; [|exact F'|intros k Hk; apply R; apply in_app_iff; auto].
  destruct D as [(e & S)|(S & sig & G & L)].
  - assert (built t = mkVResult (Failure e) (vt_index t) (vt_signature t) (vt_key_record t)) as -> by (unfold built; rewrite S; reflexivity).
    cbn [vr_status bind vr_signature vr_index vr_key_record]. unfold final at 2. rewrite S. reflexivity.
  - assert (built t = mkVResult Success (vt_index t) (Some sig) (vt_key_record t)) as -> by (unfold built; rewrite S, G; reflexivity).
    cbn [vr_status vr_signature vr_index vr_key_record]. unfold verify_body_hash. rewrite (body_key sig L). cbn [bind].
    rewrite (R (key_of sig)); [|apply in_app_iff; left; unfold keys_of; rewrite S, G; left; reflexivity].
    assert (final config body t = mkVResult (body_status E config sig body) (vt_index t) (Some sig) (vt_key_record t)) as -> by (unfold final; rewrite S, G; reflexivity).
    unfold body_status. fold (key_of sig).
    destruct (expected_result (hash_fn C) (cf_forbid_unsigned_content config) (key_of sig) body) as [[h n]|[]]; reflexivity.
Qed.

Lemma finish_spec : forall config ts order v,
  Forall done_task ts ->
  Permutation order (bhb_registrations (fold_left bhb_register (flat_map keys_of ts) (bhb_new (cf_forbid_unsigned_content config)))) ->
  v = mkVerifier (map built ts) (bhb_build (fold_left bhb_register (flat_map keys_of ts) (bhb_new (cf_forbid_unsigned_content config))) order) ->
  forall chunks, exists v', verifier_chunks v chunks = Val v' /\ verifier_finish E v' = Val (map (final config (concat chunks)) ts).
Proof.
  intros config ts order v D P -> chunks.
  pose proof (fun k => body_hash_result (hash_fn C) (cf_forbid_unsigned_content config) (flat_map keys_of ts) order chunks k P) as X.
  destruct (X (None, Sha256, Simple)) as (sts & bh & rs & H1 & H2 & _).
  eexists. split; [eapply verifier_chunks_hash; exact H1|]. unfold verifier_finish. cbn [vf_body_hasher vf_tasks]. rewrite H2. cbn [bind].
  apply finish_tasks_spec; [exact D|]. intros k Hk. destruct (X k) as (sts' & bh' & rs' & H1' & H2' & H3' & _).
  rewrite H1 in H1'. injection H1' as <- <-. rewrite H2 in H2'. injection H2' as <-. auto.
Qed.

(** ** The whole *)

Lemma in_progress_len : forall headers config now value s sig, in_progress E headers config now value s sig -> len_ok sig.
Proof.
  intros headers config now value s sig [_ H] l L. unfold signature_checks in H. cbv zeta in H. rewrite first_of_none_iff in H.
  rewrite Forall_forall in H. destruct (N.le_gt_cases l (env_usize_max E)) as [X|X]; [exact X|exfalso].
  apply (H (length_unusable E sig, VOverflow)); [|exists l; auto].
  right; right; left. reflexivity.
Qed.

Lemma in_progress_det : forall headers config now value s sig s' sig', in_progress E headers config now value s sig ->
  in_progress E headers config now value s' sig' -> s = s' /\ sig = sig'.
Proof. intros headers config now value s sig s' sig' [H _] [K _]. destruct (signature_read_det _ _ _ _ _ _ H K) as [A B]. injection B as ->. auto. Qed.

Lemma nodup_map_inj : forall A B (f : A -> B) l a b, NoDup (map f l) -> In a l -> In b l -> f a = f b -> a = b.
Proof.
  intros A B f. induction l as [|x l IH]; intros a b ND Ha Hb Hf; [destruct Ha|]. cbn [map] in ND. inversion ND as [|? ? N1 N2]; subst.
  destruct Ha as [->|Ha], Hb as [->|Hb]; auto.
  - exfalso. apply N1. rewrite Hf. apply in_map. exact Hb.
  - exfalso. apply N1. rewrite <- Hf. apply in_map. exact Ha.
Qed.

Lemma nodup_flat : forall (ps : list ((str * str) * list nat)) (R : str * str -> nat -> Prop), groups ps R ->
  (forall p q i, R p i -> R q i -> p = q) -> NoDup (flat_map snd ps).
Proof.
  intros ps R (ND & NE & HR) U.
  assert (forall p q i is js, In (p, is) ps -> In (q, js) ps -> In i is -> In i js -> p = q) as X.
  { intros p q i is js H1 H2 H3 H4. apply (U p q i); apply HR; eauto. }
  clear U HR. induction ps as [|[p is] ps IH]; [constructor|]. cbn [flat_map snd map fst] in *. inversion ND as [|? ? N1 N2]; subst.
  destruct (NE p is (or_introl eq_refl)) as [_ Ni]. specialize (IH N2 (fun p' is' H => NE p' is' (or_intror H)) (fun p' q' i is' js' A B => X p' q' i is' js' (or_intror A) (or_intror B))).
  assert (forall i, In i is -> ~ In i (flat_map snd ps)) as D.
  { intros i Hi K. apply in_flat_map in K as ([q js] & K1 & K2). cbn in K2. assert (p = q) as <- by (eapply (X p q i is js); eauto; [left; reflexivity|right; exact K1]).
    apply N1. apply in_map_iff. exists (p, js). auto. }
  clear - Ni IH D. induction is as [|a is IHi]; [exact IH|]. inversion Ni; subst. cbn [app]. constructor.
  - rewrite in_app_iff. intros [K|K]; [auto|]. apply (D a); [left; reflexivity|exact K].
  - apply IHi; auto. intros i Hi. apply D. right. exact Hi.
Qed.

Lemma Forall2_in_r : forall A B (P : A -> B -> Prop) a b y, Forall2 P a b -> In y b -> exists x, In x a /\ P x y.
Proof.
  intros A B P a b y F. induction F as [|x y' a b H F IH]; intros []; [subst; exists x; split; [left; reflexivity|exact H]|].
  destruct (IH H0) as (x' & I & X). exists x'. split; [right; exact I|exact X].
Qed.

Lemma Forall2_in_l : forall A B (P : A -> B -> Prop) a b x, Forall2 P a b -> In x a -> exists y, In y b /\ P x y.
Proof.
  intros A B P a b x F. induction F as [|x' y a b H F IH]; intros []; [subst; exists y; split; [left; reflexivity|exact H]|].
  destruct (IH H0) as (x'' & I & X). exists x''. split; [right; exact I|exact X].
Qed.

Lemma Forall2_map_r : forall A B D (P : A -> D -> Prop) (f : B -> D) a b, Forall2 (fun x y => P x (f y)) a b -> Forall2 P a (map f b).
Proof. intros A B D P f a b F. induction F; constructor; assumption. Qed.

(** [m] is the signature in field [f], if it was confirmed by a key record *)
Definition marked (answer : str * str -> IoResult (list (IoResult (list byte)))) (headers : list HeaderField) (config : Config)
    (clock : nat -> N) (f : nat * HeaderField) (m : option DkimSig) : Prop :=
  let '(i, (name, value)) := f in
  match m with
  | Some sig => exists s p txts r, in_progress E headers config (clock i) value s sig /\ lookup_pair E sig p
      /\ answer p = Ok txts /\ records_outcome E headers config sig name s (consulted txts) r None
  | None => (exists s e, signature_read E value s (Err e))
      \/ (exists s sig e, signature_read E value s (Ok sig) /\ first_of (signature_checks E headers config (clock i) sig) (Some e))
      \/ exists s sig p, in_progress E headers config (clock i) value s sig /\ lookup_pair E sig p
           /\ ((exists k, answer p = Err k) \/ answer p = Ok []
               \/ exists txts r e, answer p = Ok txts /\ records_outcome E headers config sig name s (consulted txts) r (Some e))
  end.

Definition mark_keys (m : option DkimSig) : list BodyHasherKey := match m with Some sig => [key_of sig] | None => [] end.

Theorem verify_spec_keys : forall w headers config, world_ok w -> header_fields headers ->
  (examined config headers = [] /\ verify_header E w headers config = Val None)
  \/ (examined config headers <> [] /\ exists v qs,
        verify_header E w headers config
          = Val (Some (v, lookup_log (w_resolver w) 0 0 qs, lookups_end (w_resolver w) 0 0 qs))
        /\ NoDup qs /\ (forall p, In p qs <-> pair_needed E headers config (w_clock w) p)
        /\ (exists keys order, let b := fold_left bhb_register keys (bhb_new (cf_forbid_unsigned_content config)) in
              vf_body_hasher v = bhb_build b order /\ Permutation order (bhb_registrations b)
              /\ forall answer, answered (w_resolver w) qs answer ->
                   exists ms, keys = flat_map mark_keys ms /\ Forall2 (marked answer headers config (w_clock w)) (examined config headers) ms)
        /\ forall chunks, exists v' rs, verifier_chunks v chunks = Val v' /\ verifier_finish E v' = Val rs
             /\ forall answer, answered (w_resolver w) qs answer ->
                  Forall2 (fun f r => verdict E answer headers config (w_clock w (fst f)) (concat chunks) (fst f) (fst (snd f)) (snd (snd f)) r)
                    (examined config headers) rs).
Proof.
  intros w headers config [Wq Wh] Hh. unfold verify_header, find_signatures. rewrite dkim_headers_examined.
  destruct (find_tasks_spec E headers config (w_clock w) (examined config headers)) as (ts & -> & Fts). cbn [bind].
  destruct ts as [|t0 ts0].
  { inversion Fts. left. split; reflexivity. }
  right. split; [intros X; rewrite X in Fts; inversion Fts|]. cbn [is_nil]. set (ts := t0 :: ts0) in *. clearbody ts. clear t0 ts0.
  assert (Forall (good_task E) ts) as Good by (eapply starts_good; [exact Hh| |exact Fts]; apply examined_in).
  assert (NoDup (map vt_index ts)) as Ix by (rewrite (starts_indexes _ _ _ _ _ _ Fts); apply examined_nodup).
  destruct (add_lookups_spec E ts [] (fun _ _ => False) Good) as (ps & -> & G).
  { split; [constructor|]. split; [intros ? ? []|]. intros p i. split; [intros []|intros (? & [] & _)]. }
  cbn [bind]. set (R := fun (p : str * str) i => False \/ exists t, In t ts /\ has_pair E t p /\ vt_index t = i) in G.
  assert (forall p q i, R p i -> R q i -> p = q) as RU.
  { intros p q i [[]|(t & A1 & A2 & A3)] [[]|(t' & B1 & B2 & B3)]. assert (t = t') as <- by (eapply (nodup_map_inj _ _ vt_index); eauto; congruence).
    destruct A2 as (n & v & sg & (Q1 & _) & L1), B2 as (n' & v' & sg' & (Q2 & _) & L2). rewrite Q1 in Q2. apply (f_equal vt_signature) in Q2. cbn in Q2. injection Q2 as <-.
    eapply lookup_pair_det; eassumption. }
  set (ps' := w_query_order w ps). assert (Permutation ps' ps) as Pp by apply Wq.
  assert (groups ps' R) as G'.
  { destruct G as (G1 & G2 & G3). split; [|split].
    - eapply Permutation_NoDup; [|exact G1]. apply Permutation_map. symmetry. exact Pp.
    - intros p is H. apply (G2 p). eapply Permutation_in; [exact Pp|exact H].
    - intros p i. rewrite G3. split; intros (is & H1 & H2); exists is; (split; [|exact H2]); eapply Permutation_in; [symmetry; exact Pp|exact H1|exact Pp|exact H1]. }
  clearbody ps'. clear ps Pp G.
  pose proof (nodup_flat ps' R G' RU) as NF. destruct G' as (G1 & G2 & G3).
  destruct (answer_exists (w_resolver w) (map fst ps') G1) as (answer & An).
  assert (forall answer', answered (w_resolver w) (map fst ps') answer' -> forall p, In p (map fst ps') -> answer' p = answer p) as An'.
  { intros a' H p Hp. apply In_nth_error in Hp as (k & Hk). rewrite (H _ _ Hk), (An _ _ Hk). reflexivity. }
  destruct (spawn_all_spec (w_resolver w) answer ps' 0 0 An) as (set & -> & Log & Res). rewrite Log, Res. clear Log Res set.
  set (gs := map (fun g => (snd g, answer (fst g))) ps').
  assert (flat_map fst gs = flat_map snd ps') as Eg. { unfold gs. clear. induction ps' as [|a ps IH]; [reflexivity|]. cbn [map flat_map fst]. rewrite IH. reflexivity. }
  destruct (process_results_spec E headers Hh config gs ts) as (ts' & -> & Fp).
  { rewrite Eg. exact NF. }
  { apply Forall_forall. intros t Ht Hi. rewrite Eg in Hi. apply in_flat_map in Hi as ([p is] & H1 & H2). cbn in H2.
    assert (R p (vt_index t)) as [[]|(t' & T1 & (n & v & sg & T2 & _) & T3)] by (apply G3; eauto).
    assert (t' = t) as -> by (eapply (nodup_map_inj _ _ vt_index); eauto). exists n, v, sg. exact T2. }
  cbn [bind]. rewrite Eg in Fp.
  (* what each task has become *)
  set (became := fun (f : nat * HeaderField) (t' : VerifyTask) =>
    let now := w_clock w (fst f) in
    (exists s e, signature_read E (snd (snd f)) s (Err e) /\ t' = task_failed (fst f) (DkimSignatureFormat e) None)
    \/ (exists s sig e, signature_read E (snd (snd f)) s (Ok sig) /\ first_of (signature_checks E headers config now sig) (Some e)
         /\ t' = task_failed (fst f) e (Some sig))
    \/ exists s sig p, in_progress E headers config now (snd (snd f)) s sig /\ lookup_pair E sig p /\ In p (map fst ps')
         /\ resolved E headers config (answer p) (task_started (fst f) sig (fst (snd f)) s) t').
  assert (Forall2 became (examined config headers) ts') as Fb.
  { pose proof (Forall2_compose _ _ _ _ _ _ _ _ Fts Fp) as F. revert F. apply Forall2_imp. intros f t' _ _ (t & Ht & S & P).
    unfold starts, started in S. cbn beta zeta in S. unfold became. cbv zeta.
    assert (forall e sg, t = task_failed (fst f) e sg -> t' = t) as Fl.
    { intros e sg Et. destruct P as [(is & q & H1 & H2 & V)|[_ X]]; [|exact X]. exfalso.
      apply (f_equal vt_status) in Et.
      assert (In (vt_index t) (flat_map fst gs)) as Hi by (apply in_flat_map; exists (is, q); split; [exact H1|exact H2]). rewrite Eg in Hi.
      apply in_flat_map in Hi as ([p js] & K1 & K2). cbn in K2.
      assert (R p (vt_index t)) as [[]|(u & T1 & (n & v & sg' & (T2 & _) & _) & T3)] by (apply G3; eauto).
      assert (u = t) as -> by (eapply (nodup_map_inj _ _ vt_index); eauto). rewrite T2 in Et. discriminate Et. }
    destruct S as [(s & e & S1 & S2)|[(s & sig & e & S1 & S2 & S3)|(s & sig & S1 & S2)]].
    - left. exists s, e. split; [exact S1|]. rewrite <- S2. eapply Fl. exact S2.
    - right; left. exists s, sig, e. split; [exact S1|]. split; [exact S2|]. rewrite <- S3. eapply Fl. exact S3.
    - right; right. assert (sig_from_str (env_pre E) idna s = Val (Ok sig)) as Hs by (eapply in_progress_parse; exact S1).
      destruct (pair_of E _ _ Hs) as (p & Lp).
      assert (pending E t (fst (snd f)) s sig) as Pt.
      { rewrite Forall_forall in Good. destruct (Good _ Ht) as [(e & sg & X)|(n & v & sg & X)].
        - rewrite S2 in X. apply (f_equal vt_status) in X. discriminate X.
        - pose proof X as (X1 & _). rewrite S2 in X1. pose proof (f_equal vt_signature X1) as Y1. pose proof (f_equal vt_header_name X1) as Y2. pose proof (f_equal vt_header_value X1) as Y3.
          cbn in Y1, Y2, Y3. injection Y1 as <-. injection Y2 as <-. injection Y3 as <-. exact X. }
      assert (R p (vt_index t)) as Rp. { right. exists t. split; [exact Ht|]. split; [|reflexivity]. exists (fst (snd f)), s, sig. auto. }
      exists s, sig, p. split; [exact S1|]. split; [exact Lp|].
      apply G3 in Rp as (is & K1 & K2). split; [apply in_map_iff; exists (p, is); auto|]. rewrite <- S2.
      destruct P as [(js & q & J1 & J2 & J3)|[N _]].
      + unfold gs in J1. apply in_map_iff in J1 as ([p' is'] & J4 & J5). cbn in J4. injection J4 as <- <-.
        assert (p' = p) as ->. { apply (RU p' p (vt_index t)); apply G3; eauto. } exact J3.
      + exfalso. apply N. apply in_flat_map. exists (p, is). auto. }
  assert (Forall done_task ts') as Dn.
  { eapply Forall2_Forall_r; [|exact Fb]. intros f t' _ [(s & e & _ & ->)|[(s & sig & e & _ & _ & ->)|(s & sig & p & P & _ & _ & V)]].
    - left. eexists. reflexivity.
    - left. eexists. reflexivity.
    - destruct V as [k e _ _|_|txts n v sg r e _ _ _]; [left; eexists; reflexivity|left; eexists; reflexivity|].
      destruct e as [e|]; [left; eexists; reflexivity|]. right. split; [reflexivity|]. exists sig. split; [reflexivity|].
      eapply in_progress_len. exact P. }
  rewrite (build_tasks_spec ts' _ Dn). cbn [bind].
  eexists _, (map fst ps'). split; [reflexivity|]. split; [exact G1|]. split.
  { intros p. rewrite in_map_iff. split.
    - intros ([p' is] & X & H). cbn in X. subst p'. destruct (G2 _ _ H) as [NEi _]. destruct is as [|i is]; [congruence|].
      assert (R p i) as [[]|(t & T1 & (n & v & sg & T2 & T3) & T4)] by (apply G3; exists (i :: is); split; [exact H|left; reflexivity]).
      destruct (Forall2_in_r _ _ _ _ _ _ Fts T1) as ([j [name value]] & J1 & J2). unfold starts, started in J2. cbn [fst snd] in J2.
      destruct T2 as (T2 & _). destruct J2 as [(s & e & _ & X)|[(s & sig & e & _ & _ & X)|(s & sig & X1 & X2)]].
      + rewrite T2 in X. apply (f_equal vt_status) in X. discriminate X.
      + rewrite T2 in X. apply (f_equal vt_status) in X. discriminate X.
      + rewrite T2 in X2. apply (f_equal vt_signature) in X2. cbn in X2. injection X2 as ->. exists j, name, value, s, sig. auto.
    - intros (j & name & value & s & sig & J1 & J2 & J3). destruct (Forall2_in_l _ _ _ _ _ _ Fb J1) as (t' & _ & B).
      unfold became in B. cbn [fst snd] in B. cbv zeta in B. destruct B as [(s' & e & B & _)|[(s' & sig' & e & B & B' & _)|(s' & sig' & p' & B1 & B2 & B3 & _)]].
      + exfalso. destruct J2 as [J2 _]. destruct (signature_read_det _ _ _ _ _ _ J2 B) as [_ X]. discriminate X.
      + exfalso. destruct J2 as [J2 J4]. destruct (signature_read_det _ _ _ _ _ _ J2 B) as [_ X]. injection X as <-.
        pose proof (first_of_det _ _ _ _ J4 B') as X. discriminate X.
      + destruct (in_progress_det _ _ _ _ _ _ _ _ J2 B1) as [_ <-]. assert (p = p') as <- by (eapply lookup_pair_det; eassumption).
        apply in_map_iff in B3. exact B3. }
  split.
  { exists (flat_map keys_of ts'). eexists. cbv zeta. split; [reflexivity|]. split; [apply Wh|]. intros answer' Ha. specialize (An' answer' Ha).
    exists (map (fun t => match vt_status t, vt_signature t with Successful, Some sig => Some sig | _, _ => None end) ts'). split.
    { clear. induction ts' as [|t ts IH]; [reflexivity|]. cbn [flat_map map]. rewrite IH. f_equal. unfold keys_of.
      destruct (vt_status t), (vt_signature t); reflexivity. }
    apply Forall2_map_r. revert Fb. apply Forall2_imp. intros [i [name value]] t' _ _ B. unfold became in B. cbn [fst snd] in B. cbv zeta in B.
    destruct B as [(s & e & B & ->)|[(s & sig & e & B & B' & ->)|(s & sig & p & B1 & B2 & B3 & V)]].
    - left. eauto.
    - right; left. eauto.
    - rewrite <- (An' p B3) in V. destruct V as [k e Q L|Q|txts n v sg r e Q Pn O].
      + right; right. exists s, sig, p. eauto.
      + right; right. exists s, sig, p. auto.
      + assert (n = name /\ v = s /\ sg = sig) as (-> & -> & ->).
        { destruct Pn as (X & _). pose proof (f_equal vt_signature X) as Y1. pose proof (f_equal vt_header_name X) as Y2. pose proof (f_equal vt_header_value X) as Y3.
          cbn in Y1, Y2, Y3. repeat split; congruence. }
        destruct e as [e|].
        * right; right. exists s, sig, p. split; [exact B1|]. split; [exact B2|]. right; right. eauto.
        * exists s, p, txts, r. auto. }
  intros chunks. destruct (finish_spec config ts' _ _ Dn (Wh _) eq_refl chunks) as (v' & H1 & H2).
  eexists v', _. split; [exact H1|]. split; [exact H2|]. intros answer' Ha. specialize (An' answer' Ha).
  apply Forall2_map_r. revert Fb. apply Forall2_imp. intros f t' _ _ [(s & e & B & ->)|[(s & sig & e & B & B' & ->)|(s & sig & p & B1 & B2 & B3 & V)]].
  - unfold final. cbn. eapply vd_format. exact B.
  - unfold final. cbn. eapply vd_check; eassumption.
  - rewrite <- (An' p B3) in V. destruct V as [k e Q L|Q|txts n v sg r e Q Pn O].
    + unfold final. cbn. eapply vd_lookup; eassumption.
    + unfold final. cbn. eapply vd_no_key; eassumption.
    + assert (n = fst (snd f) /\ v = s /\ sg = sig) as (-> & -> & ->).
      { destruct Pn as (X & _). pose proof (f_equal vt_signature X) as Y1. pose proof (f_equal vt_header_name X) as Y2. pose proof (f_equal vt_header_value X) as Y3.
        cbn in Y1, Y2, Y3. repeat split; congruence. }
      unfold with_outcome, final. cbn. destruct e as [e|]; [eapply vd_key; eassumption|eapply vd_body; eassumption].
Qed.

Theorem verify_spec : forall w headers config, world_ok w -> header_fields headers ->
  (examined config headers = [] /\ verify_header E w headers config = Val None)
  \/ (examined config headers <> [] /\ exists v qs,
        verify_header E w headers config
          = Val (Some (v, lookup_log (w_resolver w) 0 0 qs, lookups_end (w_resolver w) 0 0 qs))
        /\ NoDup qs /\ (forall p, In p qs <-> pair_needed E headers config (w_clock w) p)
        /\ forall chunks, exists v' rs, verifier_chunks v chunks = Val v' /\ verifier_finish E v' = Val rs
             /\ forall answer, answered (w_resolver w) qs answer ->
                  Forall2 (fun f r => verdict E answer headers config (w_clock w (fst f)) (concat chunks) (fst f) (fst (snd f)) (snd (snd f)) r)
                    (examined config headers) rs).
Proof.
  intros w headers config W H. destruct (verify_spec_keys w headers config W H) as [X|(X & v & qs & A & B & D & _ & F)]; [left; exact X|].
  right. split; [exact X|]. exists v, qs. auto.
Qed.

End WithEnv.
