(** Proofs about verification. *)

From Coq Require Import String List Sorted Permutation.
From Verif Require Import Base Utf8 Canon BodyHash Header TagList Domain Signature KeyRecord Crypto Verify
  SpecText SpecCanon SpecHash SpecHeader SpecTag SpecDomain SpecSig SpecRecord SpecSign SpecVerify
  Lib Utf8Proofs HeaderProofs HeaderCanonProofs BodyHashProofs DomainProofs TagListProofs SigProofs RecordProofs SignProofs.
Import ListNotations.
Open Scope N_scope.

(** ** First problems *)

Lemma first_step : forall A (P : Prop) a (l : list (Prop * A)) (b : bool) (k : option A),
  (b = true <-> P) -> first_of l k -> first_of ((P, a) :: l) (if b then Some a else k).
Proof. intros A P a l [] k H K; [apply fo_here; tauto|apply fo_next; [|exact K]]. intros X. apply H in X. discriminate. Qed.

Lemma exists_iff : forall A (P Q : A -> Prop), (forall x, P x <-> Q x) -> ((exists x, P x) <-> exists x, Q x).
Proof. intros A P Q H. split; intros (x & X); exists x; apply H; exact X. Qed.

Lemma filter_same : forall A (f g : A -> bool) l, (forall x, f x = g x) -> filter f l = filter g l.
Proof. intros A f g l H. induction l as [|a l IH]; [reflexivity|]. cbn [filter]. rewrite H, IH. reflexivity. Qed.

(** ** Fields examined *)

Lemma filter_enumerate : forall headers i,
  filter (fun f => name_eqb (fst (snd f)) DKIM_SIGNATURE_NAME) (enumerate i headers) = signature_fields i headers.
Proof.
  induction headers as [|f fs IH]; intros i; [reflexivity|]. cbn [enumerate filter signature_fields fst snd]. rewrite IH.
  rewrite name_eqb_same. change DKIM_SIGNATURE_NAME with (lit "DKIM-Signature"). destruct (same_nameb _ _); reflexivity.
Qed.

Lemma dkim_headers_examined : forall headers config, dkim_headers headers config = examined config headers.
Proof. intros. unfold dkim_headers, examined. rewrite filter_enumerate. reflexivity. Qed.

Lemma signature_fields_in : forall headers i j f, In (j, f) (signature_fields i headers) <->
  (i <= j)%nat /\ nth_error headers (j - i) = Some f /\ same_name (fst f) (lit "DKIM-Signature").
Proof.
  induction headers as [|g fs IH]; intros i j f; cbn [signature_fields].
  - split; [intros []|]. intros (_ & H & _). destruct (j - i)%nat; discriminate.
  - rewrite in_app_iff, IH. destruct (same_nameb (fst g) (lit "DKIM-Signature")) eqn:S.
    + apply same_nameb_iff in S. split.
      * intros [[H|[]]|(H1 & H2 & H3)].
        -- injection H as <- <-. rewrite Nat.sub_diag. auto.
        -- split; [lia|]. split; [|exact H3]. replace (j - i)%nat with (Datatypes.S (j - Datatypes.S i)) by lia. exact H2.
      * intros (H1 & H2 & H3). destruct (Nat.eq_dec i j) as [->|N].
        -- left. left. rewrite Nat.sub_diag in H2. cbn in H2. congruence.
        -- right. split; [lia|]. split; [|exact H3]. replace (j - i)%nat with (Datatypes.S (j - Datatypes.S i)) in H2 by lia. exact H2.
    + assert (~ same_name (fst g) (lit "DKIM-Signature")) as S'. { intros X. apply same_nameb_iff in X. congruence. } split.
      * intros [[]|(H1 & H2 & H3)]. split; [lia|]. split; [|exact H3].
        replace (j - i)%nat with (Datatypes.S (j - Datatypes.S i)) by lia. exact H2.
      * intros (H1 & H2 & H3). right. destruct (Nat.eq_dec i j) as [->|N].
        -- rewrite Nat.sub_diag in H2. cbn in H2. congruence.
        -- split; [lia|]. split; [|exact H3]. replace (j - i)%nat with (Datatypes.S (j - Datatypes.S i)) in H2 by lia. exact H2.
Qed.

Lemma signature_fields_increasing : forall headers i, StronglySorted lt (map fst (signature_fields i headers)).
Proof.
  induction headers as [|g fs IH]; intros i; cbn [signature_fields]; [constructor|].
  destruct (same_nameb _ _); [|apply IH]. cbn [app map fst]. constructor; [apply IH|].
  apply Forall_forall. intros j Hj. apply in_map_iff in Hj as ((j' & f) & <- & Hj). apply signature_fields_in in Hj. cbn. lia.
Qed.

Lemma sorted_nodup : forall l, StronglySorted lt l -> NoDup l.
Proof.
  intros l H. induction H; constructor; auto. intros X. rewrite Forall_forall in H0. specialize (H0 _ X). lia.
Qed.

Lemma nodup_firstn : forall A n (l : list A), NoDup l -> NoDup (firstn n l).
Proof.
  intros A n l H. rewrite <- (firstn_skipn n l) in H. revert H. generalize (skipn n l). generalize (firstn n l).
  induction l0; intros l1 H; [constructor|]. inv H. constructor; [|eauto]. intros X. apply H2. apply in_app_iff. auto.
Qed.

Lemma examined_nodup : forall config headers, NoDup (map fst (examined config headers)).
Proof.
  intros. unfold examined. rewrite <- firstn_map. apply nodup_firstn. apply sorted_nodup. apply signature_fields_increasing.
Qed.

Lemma examined_in : forall config headers i f, In (i, f) (examined config headers) -> nth_error headers i = Some f.
Proof.
  intros config headers i f H. unfold examined in H.
  assert (In (i, f) (signature_fields 0 headers)) as K. { rewrite <- (firstn_skipn (cf_max_signatures config)). apply in_app_iff. auto. }
  apply signature_fields_in in K as (_ & K & _). rewrite Nat.sub_0_r in K. exact K.
Qed.

(** ** Text records *)

Lemma parse_utf8_text : forall txt r, record_text txt r ->
  match r with Some s => parse_utf8 txt = Ok s | None => exists e, parse_utf8 txt = Err e end.
Proof.
  intros txt r H. destruct H; cbn [parse_utf8].
  - assert (from_utf8 (as_bytes s) = Some s) as -> by (apply from_utf8_spec; auto). reflexivity.
  - destruct (from_utf8 bs) as [s|] eqn:F; [|eauto]. apply from_utf8_spec in F as [F1 F2]. exfalso. eapply H; eauto.
  - eauto.
Qed.

Lemma record_text_exists : forall txt, exists r, record_text txt r.
Proof.
  intros [bs|e]; [|exists None; constructor]. destruct (from_utf8 bs) as [s|] eqn:F.
  - apply from_utf8_spec in F as [F1 F2]. exists (Some s). rewrite <- F2. constructor. exact F1.
  - exists None. constructor. intros s Hs ->. assert (from_utf8 (as_bytes s) = Some s) by (apply from_utf8_spec; auto). congruence.
Qed.

Lemma record_text_det : forall txt a b, record_text txt a -> record_text txt b -> a = b.
Proof.
  intros txt a b H K. apply parse_utf8_text in H, K. destruct a, b; try destruct H as (? & H); try destruct K as (? & K); congruence.
Qed.

Lemma last_cons : forall A (ts : list A) t l, last (t :: ts) l = last ts t.
Proof.
  intros A. induction ts as [|a ts IH]; intros t l; [reflexivity|].
  change (last (a :: ts) l = last (a :: ts) t). rewrite !IH. reflexivity.
Qed.

Lemma select_consulted : forall txts, select_txts 0 None txts = map parse_utf8 (consulted txts).
Proof.
  assert (forall txts i l, select_txts (Datatypes.S (Datatypes.S i)) (Some l) txts = [parse_utf8 (last txts l)]) as X.
  { induction txts as [|t ts IH]; intros i l; [reflexivity|]. cbn [select_txts]. change (Nat.ltb (Datatypes.S (Datatypes.S i)) 2) with false.
    cbv iota. rewrite IH, last_cons. reflexivity. }
  intros [|a [|b [|c more]]]; try reflexivity. cbn [select_txts consulted map].
  change (Nat.ltb 0 2) with true. change (Nat.ltb 1 2) with true. change (Nat.ltb 2 2) with false. cbv iota. rewrite X, last_cons. reflexivity.
Qed.

Lemma consulted_nil : forall A (l : list A), consulted l = [] <-> l = [].
Proof. intros A [|a [|b [|c l]]]; cbn; split; intros; congruence. Qed.

Section WithEnv.
Variable E : Env.
Notation C := (env_crypto E).
Notation idna := (env_idna E).
Variable headers : list HeaderField.
Hypothesis headers_ok : header_fields headers.
Variable config : Config.

(** ** Signature checks *)

Lemma signed_headers_checks : forall signed l k,
  first_of l k ->
  first_of ((exists n, In n (cf_headers_required_in_signature config) /\ forall m, In m signed -> ~ same_name m n, Policy RequiredHeaderNotSigned)
    :: (exists n, In n (cf_headers_forbidden_to_be_unsigned config) /\ (occurrences n signed < occurrences n (map fst headers))%nat, Policy UnsignedHeaderOccurrence)
    :: l)
    (match validate_signed_headers headers (cf_headers_required_in_signature config) (cf_headers_forbidden_to_be_unsigned config) signed with
     | Some e => Some e
     | None => k
     end).
Proof.
  intros signed l k K. unfold validate_signed_headers.
  match goal with |- first_of _ (match (if ?a then _ else if ?b then _ else _) with _ => _ end) =>
    replace (match (if a then Some (Policy RequiredHeaderNotSigned) else if b then Some (Policy UnsignedHeaderOccurrence) else None) with Some e => Some e | None => k end)
      with (if a then Some (Policy RequiredHeaderNotSigned) else if b then Some (Policy UnsignedHeaderOccurrence) else k) by (destruct a, b; reflexivity) end.
  apply first_step; [|apply first_step; [|exact K]].
  - rewrite existsb_exists. split.
    + intros (n & H1 & H2). exists n. split; [exact H1|]. intros m Hm S. apply negb_true_iff in H2.
      assert (existsb (name_eqb n) signed = true) as X; [|congruence]. apply existsb_exists. exists m. split; [exact Hm|].
      rewrite name_eqb_same. apply same_nameb_iff. symmetry. exact S.
    + intros (n & H1 & H2). exists n. split; [exact H1|]. apply negb_true_iff. destruct (existsb _ _) eqn:X; [|reflexivity].
      apply existsb_exists in X as (m & Hm & S). rewrite name_eqb_same in S. apply same_nameb_iff in S. exfalso. apply (H2 m Hm). symmetry. exact S.
  - rewrite existsb_exists. apply exists_iff. intros n. apply and_iff_compat_l. rewrite Nat.ltb_lt, firstn_length.
    rewrite (filter_same _ (fun f => name_eqb (fst f) n) (fun f => same_nameb (fst f) n)) by (intros; apply name_eqb_same).
    rewrite (filter_same _ (fun m => name_eqb m n) (fun m => same_nameb m n)) by (intros; apply name_eqb_same). unfold occurrences.
    replace (length (filter (fun n0 => same_nameb n0 n) (map fst headers))) with (length (filter (fun f => same_nameb (fst f) n) headers)).
    2:{ clear. induction headers as [|f fs IH]; [reflexivity|]. cbn [map filter]. destruct (same_nameb _ _); cbn; rewrite IH; reflexivity. }
    lia.
Qed.

Lemma validate_signature_spec : forall s sig now, sig_from_str (env_pre E) idna s = Val (Ok sig) ->
  first_of (signature_checks E headers config now sig) (validate_signature E sig now headers config).
Proof.
  intros s sig now Hs.
  unfold signature_checks, validate_signature, required_missing, unsigned_occurrence, length_unusable, expired, in_future, forbidden_sha1. cbv zeta.
  apply signed_headers_checks.
  change (seconds config now) with (current_timestamp config now).
  set (t0 := current_timestamp config now).
  apply first_step; [|apply first_step; [|apply first_step; [|apply first_step; [|constructor]]]].
  - destruct (s_body_length sig) as [l|]; [|split; [discriminate|]; intros (l & X & _); discriminate].
    rewrite negb_true_iff. split; [intros H; exists l; split; [reflexivity|lia]|]. intros (l' & [= <-] & H). lia.
  - rewrite andb_true_iff, negb_true_iff. apply and_iff_compat_l.
    destruct (s_expiration sig) as [x|]; [|split; [discriminate|]; intros (l & X & _); discriminate].
    unfold saturating_add. change u64_max with (2^64 - 1). rewrite N.leb_le. split; [eauto|]. intros (x' & [= <-] & H). exact H.
  - rewrite andb_true_iff, negb_true_iff. apply and_iff_compat_l.
    destruct (s_timestamp sig) as [t|]; [|split; [discriminate|]; intros (l & X & _); discriminate].
    unfold saturating_sub. rewrite N.ltb_lt. split; [intros H; exists t; split; [reflexivity|lia]|]. intros (t' & [= <-] & H). lia.
  - rewrite !andb_true_iff, negb_true_iff, hash_alg_eqb_eq. split; [tauto|]. intros [A B]. split; [split; [|exact A]|exact B].
    apply sig_ok_iff in Hs as (tags & _ & S). destruct S as (_ & (t & _ & S) & _). destruct S; auto; discriminate B.
Qed.

(** ** Reading signatures *)

Lemma signature_read_det : forall value s r s' r', signature_read E value s r -> signature_read E value s' r' -> s = s' /\ r = r'.
Proof.
  intros value s r s' r' H K. destruct H as [s r H1 H2 H3|H]; destruct K as [s' r' K1 K2 K3|K].
  - assert (s = s') as <-. { apply (as_bytes_inj s s'); congruence || assumption. } split; congruence.
  - exfalso. eapply K; eauto.
  - exfalso. eapply H; eauto.
  - auto.
Qed.

Definition started (now : N) (i : nat) (name : str) (value : list byte) (t : VerifyTask) : Prop :=
  (exists s e, signature_read E value s (Err e) /\ t = task_failed i (DkimSignatureFormat e) None)
  \/ (exists s sig e, signature_read E value s (Ok sig) /\ first_of (signature_checks E headers config now sig) (Some e)
       /\ t = task_failed i e (Some sig))
  \/ (exists s sig, in_progress E headers config now value s sig /\ t = task_started i sig name s).

Lemma find_signature_spec : forall now i name value, exists t,
  find_signature E headers config now i name value = Val t /\ started now i name value t.
Proof.
  intros now i name value. unfold find_signature. destruct (from_utf8 value) as [s|] eqn:F.
  - apply from_utf8_spec in F as [F1 F2]. destruct (sig_from_str_spec (env_pre E) idna s) as (r & Hr & _). rewrite Hr. cbn [bind].
    assert (signature_read E value s r) as R. { econstructor; eauto. }
    destruct r as [sig|e].
    + pose proof (validate_signature_spec s sig now Hr) as V. destruct (validate_signature E sig now headers config) as [e|].
      * eexists. split; [reflexivity|]. right; left. exists s, sig, e. auto.
      * eexists. split; [reflexivity|]. right; right. exists s, sig. split; [split; assumption|reflexivity].
    + eexists. split; [reflexivity|]. left. exists s, e. auto.
  - eexists. split; [reflexivity|]. left. exists [], (mkSigError EUtf8Encoding None None None None None). split; [|reflexivity].
    apply sgr_not_utf8. intros s Hs ->. assert (from_utf8 (as_bytes s) = Some s) by (apply from_utf8_spec; auto). congruence.
Qed.

Definition starts (clock : nat -> N) (f : nat * HeaderField) (t : VerifyTask) : Prop :=
  started (clock (fst f)) (fst f) (fst (snd f)) (snd (snd f)) t.

Lemma find_tasks_spec : forall clock dh, exists ts, find_tasks E headers config clock dh = Val ts /\ Forall2 (starts clock) dh ts.
Proof.
  intros clock. induction dh as [|(i & name & value) dh (ts & H & F)].
  - exists []. split; [reflexivity|constructor].
  - cbn [find_tasks]. destruct (find_signature_spec (clock i) i name value) as (t & -> & S). cbn [bind]. rewrite H. cbn [bind].
    eexists. split; [reflexivity|]. constructor; assumption.
Qed.

Lemma started_index : forall now i name value t, started now i name value t -> vt_index t = i.
Proof. intros now i name value t [(? & ? & _ & ->)|[(? & ? & ? & _ & _ & ->)|(? & ? & _ & ->)]]; reflexivity. Qed.

Lemma starts_indexes : forall clock dh ts, Forall2 (starts clock) dh ts -> map vt_index ts = map fst dh.
Proof. intros clock dh ts H. induction H; [reflexivity|]. cbn [map]. rewrite IHForall2. f_equal. eapply started_index. exact H. Qed.

(** ** Lookups *)

(** an unfinished task for signature [sig] in a field [name: value] *)
Definition pending (t : VerifyTask) (name value : str) (sig : DkimSig) : Prop :=
  t = task_started (vt_index t) sig name value /\ field_name name
  /\ sig_from_str (env_pre E) idna value = Val (Ok sig).

Definition good_task (t : VerifyTask) : Prop :=
  (exists e sig, t = task_failed (vt_index t) e sig) \/ exists name value sig, pending t name value sig.

Lemma in_progress_parse : forall now value s sig, in_progress E headers config now value s sig ->
  sig_from_str (env_pre E) idna s = Val (Ok sig).
Proof. intros now value s sig [H _]. inversion H; subst; assumption. Qed.

Lemma name_field : forall i f, nth_error headers i = Some f -> field_name (fst f).
Proof. intros i f H. apply nth_error_In in H. unfold header_fields in headers_ok. rewrite Forall_forall in headers_ok. apply (headers_ok _ H). Qed.

Lemma starts_good : forall clock dh ts, (forall i f, In (i, f) dh -> nth_error headers i = Some f) ->
  Forall2 (starts clock) dh ts -> Forall good_task ts.
Proof using headers_ok.
  intros clock dh ts Hd H. induction H as [|[i [name value]] t dh ts Hs H IH]; constructor; [|apply IH; intros; apply Hd; right; assumption].
  unfold starts in Hs. cbn [fst snd] in Hs. destruct Hs as [(? & ? & _ & ->)|[(? & ? & ? & _ & _ & ->)|(s & sig & P & ->)]].
  - left. eexists _, _. reflexivity.
  - left. eexists _, _. reflexivity.
  - right. exists name, s, sig. split; [reflexivity|]. split; [|eapply in_progress_parse; exact P].
    apply (name_field i (name, value)). apply Hd. left; reflexivity.
Qed.

Lemma pair_of : forall s sig, sig_from_str (env_pre E) idna s = Val (Ok sig) -> exists p, lookup_pair E sig p.
Proof.
  intros s sig H. apply sig_invariants in H as (_ & _ & _ & _ & ((a & A & _) & _) & ((b & B & _) & _) & _).
  exists (a, b). split; assumption.
Qed.

Lemma lookup_pair_det : forall sig p q, lookup_pair E sig p -> lookup_pair E sig q -> p = q.
Proof. intros sig [a b] [c d] [H1 H2] [K1 K2]. cbn in *. congruence. Qed.

Definition has_pair (t : VerifyTask) (p : str * str) : Prop :=
  exists name value sig, pending t name value sig /\ lookup_pair E sig p.

Lemma pair_eqb_eq : forall p q, pair_eqb p q = true <-> p = q.
Proof. intros [a b] [c d]. unfold pair_eqb. cbn [fst snd]. rewrite andb_true_iff, !leqb_eq. split; [intros [-> ->]; reflexivity|intros H; injection H; auto]. Qed.

Lemma pair_dec : forall p q : str * str, {p = q} + {p <> q}.
Proof. decide equality; apply list_eq_dec; apply N.eq_dec. Qed.

(** the groups of indexes *)
Definition groups (ps : list ((str * str) * list nat)) (R : str * str -> nat -> Prop) : Prop :=
  NoDup (map fst ps) /\ (forall p is, In (p, is) ps -> is <> [] /\ NoDup is)
  /\ forall p i, R p i <-> exists is, In (p, is) ps /\ In i is.

Lemma mem_nat_In : forall n l, mem_nat n l = true <-> In n l.
Proof.
  intros. unfold mem_nat. rewrite existsb_exists. split.
  - intros (x & H & X). apply Nat.eqb_eq in X. subst. exact H.
  - intros H. exists n. split; [exact H|]. apply Nat.eqb_refl.
Qed.

Lemma insert_keys : forall key i ps p, In p (map fst (insert_index key i ps)) <-> p = key \/ In p (map fst ps).
Proof.
  intros key i. induction ps as [|(k & is) ps IH]; intros p; cbn [insert_index map fst In].
  - split; intros [H|H]; auto; try contradiction.
  - destruct (pair_eqb key k) eqn:X.
    + apply pair_eqb_eq in X. subst. cbn [map fst In]. split; [intros [H|H]; auto|]. intros [->|[H|H]]; auto.
    + cbn [map fst In]. rewrite IH. tauto.
Qed.

Lemma insert_in : forall key i ps, NoDup (map fst ps) -> forall p js, In (p, js) (insert_index key i ps) <->
  (p <> key /\ In (p, js) ps)
  \/ p = key /\ ((~ In key (map fst ps) /\ js = [i]) \/ exists is, In (key, is) ps /\ js = if mem_nat i is then is else is ++ [i]).
Proof.
  intros key i. induction ps as [|(k & is) ps IH]; intros ND p js; cbn [insert_index map fst In].
  - split.
    + intros [H|[]]. injection H as <- <-. right. split; [reflexivity|]. left. auto.
    + intros [[_ []]|[-> [[_ ->]|(is & [] & _)]]]. auto.
  - cbn [map fst] in ND. inv ND. destruct (pair_eqb key k) eqn:X.
    + apply pair_eqb_eq in X. subst k. cbn [In]. split.
      * intros [H|H].
        -- injection H as <- <-. right. split; [reflexivity|]. right. exists is. auto.
        -- left. split; [|auto]. intros ->. apply H1. apply in_map_iff. exists (key, js). auto.
      * intros [[H3 [H|H]]|[-> [[H3 _]|(is' & [H|H] & ->)]]].
        -- injection H as -> ->. congruence.
        -- auto.
        -- exfalso. apply H3. auto.
        -- injection H as <-. auto.
        -- exfalso. apply H1. apply in_map_iff. exists (key, is'). auto.
    + assert (k <> key) as Nk. { intros ->. assert (pair_eqb key key = true) by (apply pair_eqb_eq; reflexivity). congruence. }
      cbn [In]. rewrite (IH H2). split.
      * intros [H|[[H3 H4]|[-> [[H3 ->]|(is' & H3 & ->)]]]].
        -- injection H as <- <-. left. auto.
        -- left. auto.
        -- right. split; [reflexivity|]. left. split; [|reflexivity]. intros [H|H]; [congruence|tauto].
        -- right. split; [reflexivity|]. right. exists is'. auto.
      * intros [[H3 [H|H]]|[-> [[H3 ->]|(is' & [H|H] & ->)]]].
        -- injection H as <- <-. auto.
        -- right; left. auto.
        -- right; right. split; [reflexivity|]. left. split; [|reflexivity]. tauto.
        -- injection H as -> _. congruence.
        -- right; right. split; [reflexivity|]. right. exists is'. auto.
Qed.

Lemma insert_groups : forall key i ps R, groups ps R -> groups (insert_index key i ps) (fun p j => R p j \/ p = key /\ j = i).
Proof.
  intros key i ps R (ND & NE & HR). split; [|split].
  - clear NE HR. induction ps as [|(k & is) ps IH]; cbn [insert_index map fst]; [constructor; [intros []|constructor]|].
    cbn [map fst] in ND. inv ND. destruct (pair_eqb key k) eqn:X; cbn [map fst]; constructor; auto.
    rewrite insert_keys. intros [->|H]; [|tauto]. assert (pair_eqb key key = true) by (apply pair_eqb_eq; reflexivity). congruence.
  - intros p js H. apply insert_in in H; [|exact ND]. destruct H as [[_ H]|[-> [[_ ->]|(is & H & ->)]]].
    + apply (NE _ _ H).
    + split; [discriminate|]. repeat constructor. intros [].
    + destruct (NE _ _ H) as [N1 N2]. destruct (mem_nat i is) eqn:M; [auto|]. split; [destruct is; discriminate|].
      apply (Permutation_NoDup (l := i :: is)); [apply Permutation_cons_append|]. constructor; [|exact N2].
      intros X. apply mem_nat_In in X. congruence.
  - intros p j. rewrite HR. split.
    + intros [(is & H1 & H2)|[-> ->]].
      * destruct (pair_eqb p key) eqn:X.
        -- apply pair_eqb_eq in X. subst p. exists (if mem_nat i is then is else is ++ [i]). split.
           ++ apply insert_in; [exact ND|]. right. split; [reflexivity|]. right. exists is. auto.
           ++ destruct (mem_nat i is); [exact H2|]. apply in_app_iff. auto.
        -- exists is. split; [|exact H2]. apply insert_in; [exact ND|]. left. split; [|exact H1]. intros ->.
           assert (pair_eqb key key = true) by (apply pair_eqb_eq; reflexivity). congruence.
      * destruct (in_dec pair_dec key (map fst ps)) as [K|K].
        -- apply in_map_iff in K as ((k & is) & Ek & K). cbn in Ek. subst k. exists (if mem_nat i is then is else is ++ [i]). split.
           ++ apply insert_in; [exact ND|]. right. split; [reflexivity|]. right. exists is. auto.
           ++ destruct (mem_nat i is) eqn:M; [apply mem_nat_In; exact M|]. apply in_app_iff. right. left. reflexivity.
        -- exists [i]. split; [|left; reflexivity]. apply insert_in; [exact ND|]. right. split; [reflexivity|]. left. auto.
    + intros (js & H & Hj). apply insert_in in H; [|exact ND]. destruct H as [[_ H]|[-> [[_ ->]|(is & H & ->)]]].
      * left. exists js. auto.
      * destruct Hj as [<-|[]]. auto.
      * destruct (mem_nat i is); [left; exists is; auto|]. apply in_app_iff in Hj as [Hj|[<-|[]]]; [left; exists is; auto|auto].
Qed.

Lemma add_lookups_spec : forall ts ps R, Forall good_task ts -> groups ps R ->
  exists ps', add_lookups idna ps ts = Val ps' /\ groups ps' (fun p i => R p i \/ exists t, In t ts /\ has_pair t p /\ vt_index t = i).
Proof.
  induction ts as [|t ts IH]; intros ps R G HR.
  - exists ps. split; [reflexivity|]. destruct HR as (A & B & D). split; [exact A|]. split; [exact B|]. intros p i. rewrite <- D. split; [|auto].
    intros [H|(t & [] & _)]. exact H.
  - inv G. cbn [add_lookups]. destruct H1 as [(e & sig & Et)|(name & value & sig & Et)].
    + assert (vt_status t = Failed e) as -> by (rewrite Et; reflexivity). destruct (IH ps R H2 HR) as (ps' & H & G'). exists ps'. split; [exact H|].
      destruct G' as (A & B & D). split; [exact A|]. split; [exact B|]. intros p i. rewrite <- D. split.
      * intros [X|(t' & X & HP & Y)]; [auto|]. destruct X as [<-|X]; [|right; exists t'; auto].
        destruct HP as (n & v & sg & (Z & _) & _). exfalso. rewrite Et in Z. apply (f_equal vt_status) in Z. discriminate Z.
      * intros [X|(t' & X & Y)]; [auto|]. right. exists t'. split; [right; exact X|exact Y].
    + pose proof Et as (Eq & _ & Hs). destruct (pair_of _ _ Hs) as ((d & s) & D1 & D2). cbn [fst snd] in D1, D2.
      assert (vt_status t = InProgress) as -> by (rewrite Eq; reflexivity).
      assert (vt_signature t = Some sig) as -> by (rewrite Eq; reflexivity).
      unfold domain_to_ascii. rewrite D1, D2. cbn [bind].
      destruct (IH (insert_index (d, s) (vt_index t) ps) _ H2 (insert_groups (d, s) (vt_index t) ps R HR)) as (ps' & H & G').
      exists ps'. split; [exact H|]. destruct G' as (A & B & D). split; [exact A|]. split; [exact B|]. intros p i. rewrite <- D. split.
      * intros [X|(t' & X & HP & Y)]; [auto|]. destruct X as [<-|X]; [|right; exists t'; auto].
        destruct HP as (n & v & sg & (Z & _) & P).
        left. right. split; [|auto]. assert (sg = sig) as ->. { rewrite Eq in Z. apply (f_equal vt_signature) in Z. cbn in Z. congruence. }
        apply (lookup_pair_det sig); [exact P|]. split; assumption.
      * intros [[X|[-> ->]]|(t' & X & Y)]; [auto| |right; exists t'; split; [right; exact X|exact Y]].
        right. exists t. split; [left; reflexivity|]. split; [|reflexivity]. exists name, value, sig. split; [exact Et|]. split; assumption.
Qed.

End WithEnv.
