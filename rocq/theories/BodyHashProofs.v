(** Proofs about src/crypto/hash.rs and src/message_hash.rs. *)

From Verif Require Import Lib Utf8 Canon BodyHash SpecCanon SpecHash CanonProofs.

(** ** Counting hasher *)

Definition total (bs : list (list byte)) : list byte := concat bs.

Definition lim (limit : option N) (bs : list byte) : list byte :=
  match limit with
  | Some n => firstn (N.to_nat n) bs
  | None => bs
  end.

Lemma lim_app : forall limit a b,
  lim limit (a ++ b) = lim limit a ++ lim (option_map (fun n => n - len (lim limit a)) limit) b.
Proof.
  intros [n|] a b; simpl; auto.
  rewrite firstn_app. f_equal. f_equal. unfold len. rewrite firstn_length. lia.
Qed.

Lemma len_app : forall a b, len (a ++ b) = len a + len b.
Proof. intros. unfold len. rewrite app_length. lia. Qed.

Lemma len_lim : forall n a, len (lim (Some n) a) = N.min n (len a).
Proof. intros. unfold len. simpl. rewrite firstn_length. lia. Qed.

(** state of a hasher that has been offered [o] *)
Definition ch_ok (h : CountingHasher) (alg : HashAlg) (limit : option N) (o : list byte) : Prop :=
  h = mkCH alg (lim limit o) limit (len (lim limit o)).

Lemma ch_new_ok : forall alg limit, ch_ok (ch_new alg limit) alg limit [].
Proof.
  intros alg [n|]; unfold ch_ok, ch_new; simpl; auto. rewrite firstn_nil. auto.
Qed.

Lemma ch_update_ok : forall h alg limit o c, ch_ok h alg limit o ->
  exists st h', ch_update h c = Val (st, h') /\ ch_ok h' alg limit (o ++ c)
    /\ (st = Truncated <-> exists n, limit = Some n /\ n < len (lim limit o) + len c).
Proof.
  intros h alg limit o c ->. unfold ch_update, ch_ok. simpl.
  destruct limit as [n|]; simpl.
  - change (firstn (N.to_nat n) o) with (lim (Some n) o) in *.
    rewrite len_lim. replace (N.min n (len o) <=? n) with true by lia.
    destruct (len c <=? n - N.min n (len o)) eqn:E.
    + eexists _, _. split; [reflexivity|]. split.
      * assert (firstn (N.to_nat n) (o ++ c) = firstn (N.to_nat n) o ++ c) as ->.
        { rewrite firstn_app. f_equal. apply firstn_all2. unfold len in E. lia. }
        f_equal. rewrite len_app. change (firstn (N.to_nat n) o) with (lim (Some n) o).
        rewrite len_lim. auto.
      * split; [discriminate|]. intros (m & Hm & L). inv Hm. lia.
    + eexists _, _. split; [reflexivity|]. split.
      * assert (firstn (N.to_nat n) (o ++ c)
                = firstn (N.to_nat n) o ++ firstn (N.to_nat (n - N.min n (len o))) c) as ->.
        { rewrite firstn_app. f_equal. f_equal. unfold len. lia. }
        f_equal. rewrite len_app. change (firstn (N.to_nat n) o) with (lim (Some n) o).
        rewrite len_lim. auto.
      * split; auto. intros _. exists n. split; auto. lia.
  - eexists _, _. split; [reflexivity|]. split.
    + f_equal. rewrite len_app. auto.
    + split; [discriminate|]. intros (m & Hm & L). discriminate.
Qed.

Lemma ch_done_ok : forall h alg limit o, ch_ok h alg limit o ->
  (ch_is_done h = true <-> exists n, limit = Some n /\ n <= len o).
Proof.
  intros h alg limit o ->. unfold ch_is_done. simpl. destruct limit as [n|].
  - change (firstn (N.to_nat n) o) with (lim (Some n) o). rewrite len_lim. split.
    + intros H. exists n. split; auto. lia.
    + intros (m & Hm & L). inv Hm. lia.
  - split; [discriminate|]. intros (m & Hm & _). discriminate.
Qed.

Lemma ch_finish_ok : forall hash h alg limit o, ch_ok h alg limit o ->
  ch_finish hash h =
    match limit with
    | Some n => if len o <? n then None else Some (hash alg (firstn (N.to_nat n) o), n)
    | None => Some (hash alg o, len o)
    end.
Proof.
  intros hash h alg limit o H. pose proof (ch_done_ok _ _ _ _ H) as D. unfold ch_finish.
  unfold ch_ok in H.
  destruct limit as [n|].
  - destruct (ch_is_done h) eqn:E; subst h; cbn [ch_alg ch_data ch_bytes_written ch_length is_some andb negb].
    + destruct D as [D _]. destruct (D eq_refl) as (m & Hm & L). injection Hm as <-.
      replace (len o <? n) with false by lia.
      rewrite len_lim. simpl lim. f_equal. f_equal. lia.
    + replace (len o <? n) with true; auto.
      destruct (len o <? n) eqn:E2; auto. exfalso.
      destruct D as [_ D]. discriminate D. exists n. split; auto. lia.
  - subst h. reflexivity.
Qed.

Lemma ch_updates_ok : forall bs h alg limit o, ch_ok h alg limit o ->
  exists sts h', ch_updates h bs = Val (sts, h') /\ ch_ok h' alg limit (o ++ concat bs)
    /\ length sts = length bs
    /\ forall i st, nth_error sts i = Some st ->
         (st = Truncated <-> exists n b, limit = Some n /\ nth_error bs i = Some b
            /\ b <> [] /\ n < len (o ++ concat (firstn (S i) bs))).
Proof.
  induction bs as [|b bs IH]; intros h alg limit o H; simpl.
  - eexists _, _. split; [reflexivity|]. rewrite app_nil_r. split; auto. split; auto.
    intros [|i]; discriminate.
  - destruct (ch_update_ok h alg limit o b H) as (st & h1 & H1 & H2 & H3).
    destruct (IH h1 alg limit (o ++ b) H2) as (sts & h2 & H4 & H5 & H6 & H7).
    rewrite H1. simpl. rewrite H4. simpl. eexists _, _. split; [reflexivity|].
    rewrite <- app_assoc in H5. split; auto. split; [simpl; lia|].
    intros [|i] st0 Hst.
    + simpl in Hst. inv Hst. rewrite H3. simpl. rewrite app_nil_r. split.
      * intros (n & -> & L). exists n, b. rewrite len_lim in L. rewrite len_app.
        split; auto. split; auto. split; [|lia]. intros ->. unfold len in L. simpl in L. lia.
      * intros (n & b0 & -> & Hb & Hn & L). inv Hb. exists n. split; auto. rewrite len_lim.
        rewrite len_app in L. destruct b0; [congruence|]. unfold len in *. simpl length in *. lia.
    + simpl in Hst. rewrite (H7 i st0 Hst). simpl nth_error.
      change (concat (firstn (S (S i)) (b :: bs))) with (b ++ concat (firstn (S i) bs)).
      rewrite app_assoc. tauto.
Qed.

(** ** Running the canonicalizer *)

Definition run (alg : CanonAlg) (p : list byte) (o : list byte) (bc : BodyCanon) : Prop :=
  canonicalize_chunk (bc_new alg) p = Val (o, bc).

Lemma run_total : forall alg p, exists o bc, run alg p o bc.
Proof.
  intros [] p; [destruct (simple_run p) as (o & bc & H & _)|destruct (relaxed_run p) as (o & bc & H & _)];
    exists o, bc; exact H.
Qed.

Lemma run_det : forall alg p o1 bc1 o2 bc2, run alg p o1 bc1 -> run alg p o2 bc2 -> o1 = o2 /\ bc1 = bc2.
Proof. unfold run. intros. rewrite H in H0. inv H0. auto. Qed.

Lemma run_app : forall alg p o bc c o2 bc2, run alg p o bc -> canonicalize_chunk bc c = Val (o2, bc2) ->
  run alg (p ++ c) (o ++ o2) bc2.
Proof. unfold run. intros. rewrite canonicalize_chunk_app, H. simpl. rewrite H0. auto. Qed.

Lemma run_step : forall alg p o bc c, run alg p o bc ->
  exists o2 bc2, canonicalize_chunk bc c = Val (o2, bc2).
Proof.
  intros alg p o bc c H. destruct (run_total alg (p ++ c)) as (o' & bc' & H').
  unfold run in *. rewrite canonicalize_chunk_app, H in H'. simpl in H'.
  destruct (canonicalize_chunk bc c) as [[o2 bc2]|]; [eauto|discriminate].
Qed.

Lemma canonicalize_body_run : forall alg body o bc, run alg body o bc ->
  exists fin, bc_finish bc = Val fin /\ canonical_body alg body = o ++ fin.
Proof.
  intros alg body o bc H.
  assert (canonicalize_body alg [body] = Val (canonical_body alg body)) as E.
  { destruct alg; [rewrite simple_body_spec|rewrite relaxed_body_spec]; simpl; rewrite app_nil_r; auto. }
  unfold canonicalize_body in E. rewrite canonicalize_chunks_concat in E. simpl in E.
  rewrite app_nil_r in E. unfold run in H. rewrite H in E. simpl in E.
  destruct (bc_finish bc) as [fin|]; [|discriminate]. simpl in E. inv E. eauto.
Qed.

(** ** Entries *)

Definition trunc (limit : option N) (o : list byte) : Prop :=
  exists n, limit = Some n /\ n < len o.

Definition entry_ok (fot : bool) (p : list byte) (e : HasherEntry) : Prop :=
  let '((limit, alg, canon), (h, tr)) := e in
  exists o bc, run canon p o bc /\ ch_ok h alg limit o
    /\ (tr = true -> trunc limit o) /\ (fot = true -> trunc limit o -> tr = true).

Definition entry_canon (e : HasherEntry) : CanonAlg := snd (fst e).
Definition entry_is_active (fot : bool) (e : HasherEntry) : bool :=
  entry_active fot (fst (snd e)) (snd (snd e)).

Definition canon_synced (fot : bool) (p : list byte) (alg : CanonAlg) (bc : BodyCanon)
    (es : list HasherEntry) : Prop :=
  forall e, In e es -> entry_is_active fot e = true -> entry_canon e = alg ->
    exists o, run alg p o bc.

(** An inactive entry is fine whatever follows. *)
Lemma inactive_entry : forall fot p c e,
  entry_ok fot p e -> entry_is_active fot e = false -> entry_ok fot (p ++ c) e.
Proof.
  intros fot p c [[[limit alg] canon] [h tr]] (o & bc & H1 & H2 & H3 & H4) Ha.
  destruct (run_step _ _ _ _ c H1) as (o2 & bc2 & H5).
  exists (o ++ o2), bc2. split; [eapply run_app; eauto|].
  unfold entry_is_active, entry_active in Ha. simpl in Ha.
  apply orb_false_iff in Ha. destruct Ha as [Ha Hb]. apply negb_false_iff in Ha.
  apply (ch_done_ok _ _ _ _ H2) in Ha. destruct Ha as (n & -> & L).
  split; [|split].
  - unfold ch_ok in *. subst h. simpl.
    replace (firstn (N.to_nat n) (o ++ o2)) with (firstn (N.to_nat n) o); auto.
    rewrite firstn_app. replace (N.to_nat n - length o)%nat with O by (unfold len in L; lia).
    simpl. rewrite app_nil_r. auto.
  - intros Ht. destruct (H3 Ht) as (m & Hm & Lm). inv Hm. exists m. split; auto.
    rewrite len_app. lia.
  - intros Hf _. rewrite Hf in Hb. simpl in Hb. apply negb_false_iff in Hb. auto.
Qed.

Definition lazy_ok (chunk : list byte) (bc0 : BodyCanon) (lz : LazyChunk) : Prop :=
  lz = mkLazy None bc0 \/
  exists o bc1, canonicalize_chunk bc0 chunk = Val (o, bc1) /\ lz = mkLazy (Some o) bc1.

Lemma lazy_chunk_ok : forall chunk bc0 lz o bc1,
  lazy_ok chunk bc0 lz -> canonicalize_chunk bc0 chunk = Val (o, bc1) ->
  lazy_chunk chunk lz = Val (o, mkLazy (Some o) bc1).
Proof.
  intros chunk bc0 lz o bc1 [->|(o' & bc' & H1 & ->)] H; unfold lazy_chunk; simpl.
  - rewrite H. auto.
  - rewrite H in H1. inv H1. auto.
Qed.

Definition active_for (fot : bool) (alg : CanonAlg) (es : list HasherEntry) : Prop :=
  exists e, In e es /\ entry_is_active fot e = true /\ entry_canon e = alg.

(** one active entry *)
Lemma active_update : forall fot p chunk limit alg canon h tr o2 bc0 bc2 st h1,
  entry_ok fot p ((limit, alg, canon), (h, tr)) ->
  entry_active fot h tr = true ->
  (exists o, run canon p o bc0) ->
  canonicalize_chunk bc0 chunk = Val (o2, bc2) ->
  ch_update h o2 = Val (st, h1) ->
  let tr1 := match st with Truncated => true | AllConsumed => tr end in
  entry_ok fot (p ++ chunk) ((limit, alg, canon), (h1, tr1))
  /\ (match st with Truncated => true | AllConsumed => negb (fot || negb (ch_is_done h1)) end
      = negb (entry_active fot h1 tr1)).
Proof.
  intros fot p chunk limit alg canon h tr o2 bc0 bc2 st h1 (o & bc & H1 & H2 & H3 & H4) Ha (o' & Hr) Hc Hu tr1.
  destruct (run_det _ _ _ _ _ _ H1 Hr) as [<- <-].
  destruct (ch_update_ok h alg limit o o2 H2) as (st' & h1' & U1 & U2 & U3).
  rewrite Hu in U1. inv U1.
  assert (trunc limit (o ++ o2) <-> tr1 = true \/ (trunc limit o /\ fot = false)) as T.
  { unfold tr1. destruct st'.
    - split.
      + intros (n & -> & L). right.
        assert (~ n < len (lim (Some n) o) + len o2) as X.
        { intros X. destruct U3 as [_ U3]. discriminate U3. exists n. auto. }
        rewrite len_lim in X. rewrite len_app in L.
        assert (n < len o) as Y by lia. split; [exists n; auto|].
        destruct fot; auto. exfalso.
        specialize (H4 eq_refl (ex_intro _ n (conj eq_refl Y))). subst tr.
        unfold entry_active in Ha. simpl in Ha. rewrite orb_false_r in Ha.
        apply negb_true_iff in Ha. destruct (ch_done_ok _ _ _ _ H2) as [_ D].
        rewrite D in Ha; [discriminate|]. exists n. split; auto. lia.
      + intros [H|[(n & -> & L) _]].
        * destruct (H3 H) as (n & -> & L). exists n. split; auto. rewrite len_app. lia.
        * exists n. split; auto. rewrite len_app. lia.
    - split; auto. intros _. destruct U3 as [U3 _]. destruct (U3 eq_refl) as (n & -> & L).
      exists n. split; auto. rewrite len_lim in L. rewrite len_app. lia. }
  split.
  - exists (o ++ o2), bc2. split; [eapply run_app; eauto|]. split; auto. split.
    + intros H. apply T. auto.
    + intros Hf Ht. apply T in Ht. destruct Ht as [Ht|[_ Ht]]; auto. congruence.
  - pose proof (ch_done_ok _ _ _ _ U2) as D. unfold entry_active. unfold tr1 in *.
    destruct st'.
    + destruct fot; simpl.
      * destruct tr; [|rewrite orb_true_r; auto].
        unfold entry_active in Ha. simpl in Ha. rewrite orb_false_r in Ha. apply negb_true_iff in Ha.
        exfalso. destruct (H3 eq_refl) as (n & -> & L). destruct (ch_done_ok _ _ _ _ H2) as [_ D2].
        rewrite D2 in Ha; [discriminate|]. exists n. split; auto. lia.
      * rewrite orb_false_r, !negb_involutive. auto.
    + assert (trunc limit (o ++ o2)) as (n & -> & L) by (apply T; auto).
      assert (ch_is_done h1' = true) as ->. { apply D. exists n. split; auto. lia. }
      simpl. rewrite andb_false_r. auto.
Qed.

Lemma hash_entries_ok : forall fot p chunk bcs bcr es ls lr,
  Forall (entry_ok fot p) es ->
  canon_synced fot p Simple bcs es -> canon_synced fot p Relaxed bcr es ->
  lazy_ok chunk bcs ls -> lazy_ok chunk bcr lr ->
  exists es1 ls1 lr1, hash_entries fot chunk ls lr es
      = Val (es1, ls1, lr1, forallb (fun e => negb (entry_is_active fot e)) es1)
    /\ map fst es1 = map fst es
    /\ Forall (entry_ok fot (p ++ chunk)) es1
    /\ (forallb (fun e => negb (entry_is_active fot e)) es = true -> es1 = es /\ ls1 = ls /\ lr1 = lr)
    /\ (forall e, In e es1 -> entry_is_active fot e = true -> active_for fot (entry_canon e) es)
    /\ lazy_ok chunk bcs ls1 /\ lazy_ok chunk bcr lr1
    /\ (active_for fot Simple es \/ ls <> mkLazy None bcs -> ls1 <> mkLazy None bcs)
    /\ (active_for fot Relaxed es \/ lr <> mkLazy None bcr -> lr1 <> mkLazy None bcr).
Proof.
  intros fot p chunk bcs bcr. induction es as [|[[[limit alg] canon] [h tr]] es IH];
    intros ls lr Hok Ss Sr Ls Lr.
  - exists [], ls, lr. split; [reflexivity|]. split; [reflexivity|]. split; [constructor|].
    split; auto. split; [intros e []|]. split; auto. split; auto.
    split; intros [(e & [] & _)|H]; auto.
  - apply Forall_cons_iff in Hok. destruct Hok as [He Hes]. cbn [hash_entries].
    assert (canon_synced fot p Simple bcs es) as Ss' by (intros e Hin; apply Ss; simpl; auto).
    assert (canon_synced fot p Relaxed bcr es) as Sr' by (intros e Hin; apply Sr; simpl; auto).
    destruct (entry_active fot h tr) eqn:Ea.
    + (* active *)
      set (e0 := ((limit, alg, canon), (h, tr)) : HasherEntry) in *.
      assert (exists bc0, (canon = Simple -> bc0 = bcs) /\ (canon = Relaxed -> bc0 = bcr)
              /\ exists o, run canon p o bc0) as (bc0 & B1 & B2 & B3).
      { destruct canon.
        - exists bcs. split; auto. split; [discriminate|]. apply (Ss e0); simpl; auto.
        - exists bcr. split; [discriminate|]. split; auto. apply (Sr e0); simpl; auto. }
      destruct B3 as (o & B3). destruct (run_step _ _ _ _ chunk B3) as (o2 & bc2 & B4).
      assert (exists st h1, ch_update h o2 = Val (st, h1)) as (st & h1 & U).
      { destruct He as (o' & bc' & _ & H2 & _). destruct (ch_update_ok _ _ _ _ o2 H2) as (st & h1 & U & _). eauto. }
      destruct (active_update fot p chunk limit alg canon h tr o2 bc0 bc2 st h1 He Ea (ex_intro _ o B3) B4 U) as [A1 A2].
      set (tr1 := match st with Truncated => true | AllConsumed => tr end) in *.
      set (ls1 := match canon with Simple => mkLazy (Some o2) bc2 | Relaxed => ls end).
      set (lr1 := match canon with Simple => lr | Relaxed => mkLazy (Some o2) bc2 end).
      assert (lazy_ok chunk bcs ls1) as Ls1.
      { unfold ls1. destruct canon; auto. right. rewrite <- B1 by auto. eauto. }
      assert (lazy_ok chunk bcr lr1) as Lr1.
      { unfold lr1. destruct canon; auto. right. rewrite <- B2 by auto. eauto. }
      destruct (IH ls1 lr1 Hes Ss' Sr' Ls1 Lr1) as (es1 & ls2 & lr2 & I1 & I2 & I3 & I4 & I5 & I6 & I7 & I8 & I9).
      assert (match canon with
          | Simple => let! (c, ls1) := lazy_chunk chunk ls in Val (c, ls1, lr)
          | Relaxed => let! (c, lr1) := lazy_chunk chunk lr in Val (c, ls, lr1)
          end = Val (o2, ls1, lr1)) as E.
      { unfold ls1, lr1. destruct canon.
        - rewrite (lazy_chunk_ok chunk bcs ls o2 bc2); auto. rewrite <- B1; auto.
        - rewrite (lazy_chunk_ok chunk bcr lr o2 bc2); auto. rewrite <- B2; auto. }
      rewrite E. cbn [bind]. rewrite U. cbn [bind].
      exists (((limit, alg, canon), (h1, tr1)) :: es1), ls2, lr2.
      split.
      { cbn [forallb]. unfold entry_is_active at 1. cbn [fst snd]. rewrite <- A2.
        unfold tr1. destruct st; rewrite I1; reflexivity. }
      split; [simpl; rewrite I2; reflexivity|]. split; [constructor; auto|].
      split. { cbn [forallb]. unfold e0, entry_is_active at 1. cbn [fst snd]. rewrite Ea. discriminate. }
      split.
      { intros e [<-|Hin] Ha.
        - exists e0. simpl. split; auto.
        - destruct (I5 e Hin Ha) as (e' & X1 & X2). exists e'. simpl. auto. }
      split; auto. split; auto. split.
      * intros H. apply I8. unfold ls1. destruct canon.
        -- right. discriminate.
        -- destruct H as [(e & [<-|Hin] & X1 & X2)|H]; [discriminate|left; exists e; auto|right; auto].
      * intros H. apply I9. unfold lr1. destruct canon.
        -- destruct H as [(e & [<-|Hin] & X1 & X2)|H]; [discriminate|left; exists e; auto|right; auto].
        -- right. discriminate.
    + destruct (IH ls lr Hes Ss' Sr' Ls Lr) as (es1 & ls2 & lr2 & I1 & I2 & I3 & I4 & I5 & I6 & I7 & I8 & I9).
      rewrite I1. cbn [bind].
      exists (((limit, alg, canon), (h, tr)) :: es1), ls2, lr2.
      split. { cbn [forallb]. unfold entry_is_active at 2. cbn [fst snd]. rewrite Ea. reflexivity. }
      split; [simpl; rewrite I2; reflexivity|].
      split; [constructor; auto; apply inactive_entry; auto|].
      split. { cbn [forallb]. intros H. apply andb_true_iff in H. destruct H as [_ H].
               destruct (I4 H) as (-> & -> & ->). auto. }
      split.
      { intros e [<-|Hin] Ha.
        - unfold entry_is_active in Ha. cbn [fst snd] in Ha. congruence.
        - destruct (I5 e Hin Ha) as (e' & X1 & X2). exists e'. simpl. auto. }
      split; auto. split; auto. split.
      * intros H. apply I8. destruct H as [(e & [<-|Hin] & X1 & X2)|H]; [|left; exists e; auto|right; auto].
        unfold entry_is_active in X1. cbn [fst snd] in X1. congruence.
      * intros H. apply I9. destruct H as [(e & [<-|Hin] & X1 & X2)|H]; [|left; exists e; auto|right; auto].
        unfold entry_is_active in X1. cbn [fst snd] in X1. congruence.
Qed.

(** ** The whole hasher *)

Definition all_inactive (bh : BodyHasher) : bool :=
  forallb (fun e => negb (entry_is_active (bh_fail_on_truncate bh) e)) (bh_hashers bh).

Record bh_ok (fot : bool) (keys : list BodyHasherKey) (p : list byte) (bh : BodyHasher) : Prop := {
  bh_ok_fot : bh_fail_on_truncate bh = fot;
  bh_ok_keys : map fst (bh_hashers bh) = keys;
  bh_ok_entries : Forall (entry_ok fot p) (bh_hashers bh);
  bh_ok_simple : canon_synced fot p Simple (bh_simple bh) (bh_hashers bh);
  bh_ok_relaxed : canon_synced fot p Relaxed (bh_relaxed bh) (bh_hashers bh)
}.

Lemma bh_new_ok : forall b order, bh_ok (bhb_fail_on_truncate b) order [] (bhb_build b order).
Proof.
  intros b order. constructor; simpl; auto.
  - rewrite map_map. rewrite <- map_id. apply map_ext. intros [[l a] c]. auto.
  - apply Forall_forall. intros e He. apply in_map_iff in He. destruct He as ([[l a] c] & <- & _).
    exists [], (bc_new c). split; [reflexivity|]. split; [apply ch_new_ok|].
    split; [discriminate|]. intros _ (n & _ & L). unfold len in L. simpl in L. lia.
  - intros e _ _ _. exists []. reflexivity.
  - intros e _ _ _. exists []. reflexivity.
Qed.

Lemma hash_chunk_ok : forall fot keys p bh chunk, bh_ok fot keys p bh ->
  exists bh1, hash_chunk bh chunk = Val (if all_inactive bh1 then Done else Interested, bh1)
    /\ bh_ok fot keys (p ++ chunk) bh1
    /\ (all_inactive bh = true -> bh1 = bh).
Proof.
  intros fot keys p bh chunk [F K E S R]. unfold hash_chunk. rewrite F.
  destruct (hash_entries_ok fot p chunk (bh_simple bh) (bh_relaxed bh) (bh_hashers bh)
              (mkLazy None (bh_simple bh)) (mkLazy None (bh_relaxed bh)) E S R
              (or_introl eq_refl) (or_introl eq_refl))
    as (es1 & ls1 & lr1 & I1 & I2 & I3 & I4 & I5 & I6 & I7 & I8 & I9).
  rewrite I1. cbn [bind].
  exists (mkBH fot es1 (lz_canon ls1) (lz_canon lr1)). split; [reflexivity|]. split.
  - constructor; simpl; auto.
    + rewrite I2. auto.
    + intros e Hin Ha Hc. pose proof (I5 e Hin Ha) as Af. rewrite Hc in Af.
      destruct I6 as [->|(o & bc1 & J1 & ->)]; [exfalso; apply I8; auto|].
      destruct Af as (e' & A1 & A2 & A3). destruct (S e' A1 A2 A3) as (o' & J2).
      exists (o' ++ o). simpl. eapply run_app; eauto.
    + intros e Hin Ha Hc. pose proof (I5 e Hin Ha) as Af. rewrite Hc in Af.
      destruct I7 as [->|(o & bc1 & J1 & ->)]; [exfalso; apply I9; auto|].
      destruct Af as (e' & A1 & A2 & A3). destruct (R e' A1 A2 A3) as (o' & J2).
      exists (o' ++ o). simpl. eapply run_app; eauto.
  - unfold all_inactive. rewrite F. intros H. destruct (I4 H) as (-> & -> & ->). simpl.
    rewrite <- F. destruct bh; reflexivity.
Qed.

Lemma hash_chunks_ok : forall fot keys chunks p bh, bh_ok fot keys p bh ->
  exists sts bh1, hash_chunks bh chunks = Val (sts, bh1)
    /\ bh_ok fot keys (p ++ concat chunks) bh1 /\ length sts = length chunks
    /\ (all_inactive bh = true -> bh1 = bh /\ Forall (eq Done) sts)
    /\ (In Done sts -> all_inactive bh1 = true).
Proof.
  intros fot keys. induction chunks as [|c chunks IH]; intros p bh H; simpl.
  - exists [], bh. rewrite app_nil_r. repeat split; auto; try apply H.
  - destruct (hash_chunk_ok fot keys p bh c H) as (bh1 & H1 & H2 & H3).
    destruct (IH (p ++ c) bh1 H2) as (sts & bh2 & I1 & I2 & I3 & I4 & I5).
    rewrite H1. cbn [bind]. rewrite I1. cbn [bind]. eexists _, _. split; [reflexivity|].
    rewrite app_assoc. split; auto. split; [simpl; auto|]. split.
    + intros Ha. specialize (H3 Ha). subst bh1. destruct (I4 Ha) as [-> Hd]. split; auto.
      constructor; auto. rewrite Ha. auto.
    + intros [Hd|Hd]; auto. destruct (all_inactive bh1) eqn:Ha; [|discriminate].
      destruct (I4 eq_refl) as [-> _]. auto.
Qed.

(** ** Finishing *)

Section Hash.
Variable hash : HashAlg -> list byte -> list byte.

Definition fin_ok (bc0 : BodyCanon) (f : FinishChunk) : Prop :=
  f = mkFin (Some bc0) None \/ exists c, bc_finish bc0 = Val c /\ f = mkFin None (Some c).

Lemma finish_chunk_ok : forall bc0 f c, fin_ok bc0 f -> bc_finish bc0 = Val c ->
  finish_chunk f = Val (c, mkFin None (Some c)).
Proof.
  intros bc0 f c [->|(c' & H1 & ->)] H; unfold finish_chunk; simpl.
  - rewrite H. auto.
  - rewrite H in H1. inv H1. auto.
Qed.

Lemma result_of : forall fot p limit alg canon h tr cb,
  canonical_body canon p = cb ->
  ch_ok h alg limit cb -> (tr = true -> trunc limit cb) -> (fot = true -> trunc limit cb -> tr = true) ->
  (if fot && tr then Err InputTruncated
   else match ch_finish hash h with Some r => Ok r | None => Err InsufficientInput end)
  = expected_result hash fot (limit, alg, canon) p.
Proof.
  intros fot p limit alg canon h tr cb Hc H1 H2 H3. unfold expected_result. rewrite Hc.
  rewrite (ch_finish_ok _ _ _ _ _ H1). fold (len cb). destruct limit as [n|].
  - destruct (len cb <? n) eqn:E1.
    + destruct (fot && tr) eqn:E2; auto. apply andb_true_iff in E2. destruct E2 as [-> ->].
      destruct (H2 eq_refl) as (m & Hm & L). inv Hm. lia.
    + destruct fot; simpl.
      * destruct tr; simpl.
        -- destruct (H2 eq_refl) as (m & Hm & L). injection Hm as <-. replace (n <? len cb) with true by lia. auto.
        -- destruct (n <? len cb) eqn:E2; auto. discriminate H3; auto. exists n. split; auto. lia.
      * auto.
  - destruct (fot && tr) eqn:E2; auto. apply andb_true_iff in E2. destruct E2 as [-> ->].
    destruct (H2 eq_refl) as (m & Hm & L). discriminate.
Qed.

Lemma finish_entries_ok : forall fot p bcs bcr es fs fr,
  Forall (entry_ok fot p) es ->
  canon_synced fot p Simple bcs es -> canon_synced fot p Relaxed bcr es ->
  fin_ok bcs fs -> fin_ok bcr fr ->
  finish_entries hash fot fs fr es
  = Val (map (fun e => (fst e, expected_result hash fot (fst e) p)) es).
Proof.
  intros fot p bcs bcr. induction es as [|[[[limit alg] canon] [h tr]] es IH];
    intros fs fr Hok Ss Sr Fs Fr; auto.
  apply Forall_cons_iff in Hok. destruct Hok as [He Hes]. cbn [finish_entries].
  assert (canon_synced fot p Simple bcs es) as Ss' by (intros e Hin; apply Ss; simpl; auto).
  assert (canon_synced fot p Relaxed bcr es) as Sr' by (intros e Hin; apply Sr; simpl; auto).
  destruct He as (o & bc & H1 & H2 & H3 & H4).
  destruct (canonicalize_body_run _ _ _ _ H1) as (fin & F1 & F2).
  destruct (entry_active fot h tr) eqn:Ea.
  - set (e0 := ((limit, alg, canon), (h, tr)) : HasherEntry) in *.
    destruct (ch_update_ok h alg limit o fin H2) as (st & h1 & U1 & U2 & U3).
    set (fs1 := match canon with Simple => mkFin None (Some fin) | Relaxed => fs end).
    set (fr1 := match canon with Simple => fr | Relaxed => mkFin None (Some fin) end).
    assert (forall e, e = e0 -> entry_is_active fot e = true /\ entry_canon e = canon) as He0
      by (intros e ->; auto).
    assert (canon = Simple -> bc = bcs) as B1.
    { intros ->. destruct (Ss e0) as (o' & R); simpl; auto. eapply run_det; eauto. }
    assert (canon = Relaxed -> bc = bcr) as B2.
    { intros ->. destruct (Sr e0) as (o' & R); simpl; auto. eapply run_det; eauto. }
    assert (match canon with
        | Simple => let! (c, fs1) := finish_chunk fs in Val (c, fs1, fr)
        | Relaxed => let! (c, fr1) := finish_chunk fr in Val (c, fs, fr1)
        end = Val (fin, fs1, fr1)) as E.
    { unfold fs1, fr1. destruct canon.
      - rewrite (finish_chunk_ok bcs fs fin); auto. rewrite <- B1; auto.
      - rewrite (finish_chunk_ok bcr fr fin); auto. rewrite <- B2; auto. }
    rewrite E. cbn [bind]. rewrite U1. cbn [bind].
    rewrite IH; auto.
    2:{ unfold fs1. destruct canon; auto. right. rewrite <- B1 by auto. eauto. }
    2:{ unfold fr1. destruct canon; auto. right. rewrite <- B2 by auto. eauto. }
    cbn [bind map fst]. do 3 f_equal.
    assert (canonical_body canon p = o ++ fin) as Hcb by auto.
    (* as in the chunk case *)
    assert (trunc limit (o ++ fin) <-> match st with Truncated => true | AllConsumed => tr end = true
                 \/ (trunc limit o /\ fot = false)) as T.
    { destruct st.
      - split.
        + intros (n & -> & L). right.
          assert (~ n < len (lim (Some n) o) + len fin) as X.
          { intros X. destruct U3 as [_ U3]. discriminate U3. exists n. auto. }
          rewrite len_lim in X. rewrite len_app in L.
          assert (n < len o) as Y by lia. split; [exists n; auto|].
          destruct fot; auto. exfalso.
          specialize (H4 eq_refl (ex_intro _ n (conj eq_refl Y))). subst tr.
          unfold entry_active in Ea. simpl in Ea. rewrite orb_false_r in Ea.
          apply negb_true_iff in Ea. destruct (ch_done_ok _ _ _ _ H2) as [_ D].
          rewrite D in Ea; [discriminate|]. exists n. split; auto. lia.
        + intros [H|[(n & -> & L) _]].
          * destruct (H3 H) as (n & -> & L). exists n. split; auto. rewrite len_app. lia.
          * exists n. split; auto. rewrite len_app. lia.
      - split; auto. intros _. destruct U3 as [U3 _]. destruct (U3 eq_refl) as (n & -> & L).
        exists n. split; auto. rewrite len_lim in L. rewrite len_app. lia. }
    apply (result_of fot p limit alg canon h1 _ (o ++ fin)); auto.
    + intros H. apply T. auto.
    + intros Hf Ht. apply T in Ht. destruct Ht as [Ht|[_ Ht]]; auto. congruence.
  - cbn [bind]. rewrite IH; auto. cbn [bind map fst]. do 3 f_equal.
    (* inactive: the final chunk would not matter *)
    unfold entry_active in Ea. apply orb_false_iff in Ea. destruct Ea as [Ea Eb].
    apply negb_false_iff in Ea. apply (ch_done_ok _ _ _ _ H2) in Ea. destruct Ea as (n & -> & L).
    apply (result_of fot p (Some n) alg canon h tr (o ++ fin)); auto.
    + unfold ch_ok in *. subst h. simpl.
      replace (firstn (N.to_nat n) (o ++ fin)) with (firstn (N.to_nat n) o); auto.
      rewrite firstn_app. replace (N.to_nat n - length o)%nat with O by (unfold len in L; lia).
      simpl. rewrite app_nil_r. auto.
    + intros Ht. destruct (H3 Ht) as (m & Hm & Lm). inv Hm. exists m. split; auto.
      rewrite len_app. lia.
    + intros Hf _. rewrite Hf in Eb. simpl in Eb. apply negb_false_iff in Eb. auto.
Qed.

Lemma bh_finish_ok : forall fot keys p bh, bh_ok fot keys p bh ->
  bh_finish hash bh = Val (map (fun k => (k, expected_result hash fot k p)) keys).
Proof.
  intros fot keys p bh [F K E S R]. unfold bh_finish. rewrite F.
  rewrite (finish_entries_ok fot p (bh_simple bh) (bh_relaxed bh)); auto; try (left; reflexivity).
  rewrite <- K, map_map. auto.
Qed.

(** ** Main statements *)

Theorem hash_body_results : forall b order chunks,
  exists sts bh, hash_chunks (bhb_build b order) chunks = Val (sts, bh)
    /\ length sts = length chunks
    /\ bh_finish hash bh
       = Val (map (fun k => (k, expected_result hash (bhb_fail_on_truncate b) k (concat chunks))) order).
Proof.
  intros. destruct (hash_chunks_ok _ _ chunks [] _ (bh_new_ok b order)) as (sts & bh & H1 & H2 & H3 & _).
  exists sts, bh. split; auto. split; auto. apply bh_finish_ok with (p := [] ++ concat chunks). auto.
Qed.

Lemma hash_alg_eqb_eq : forall a b, hash_alg_eqb a b = true <-> a = b.
Proof. intros [] []; simpl; split; congruence. Qed.
Lemma canon_alg_eqb_eq : forall a b, canon_alg_eqb a b = true <-> a = b.
Proof. intros [] []; simpl; split; congruence. Qed.

Lemma key_eqb_eq : forall k1 k2, key_eqb k1 k2 = true <-> k1 = k2.
Proof.
  intros [[l1 h1] c1] [[l2 h2] c2]. unfold key_eqb. rewrite !andb_true_iff.
  rewrite hash_alg_eqb_eq, canon_alg_eqb_eq. split.
  - intros [[H1 H2] H3]. subst. destruct l1, l2; try discriminate; auto.
    apply N.eqb_eq in H1. subst. auto.
  - intros H. inv H. split; auto. split; auto. destruct l2; auto. apply N.eqb_refl.
Qed.

Lemma results_get_map : forall (f : BodyHasherKey -> BodyHashResult) k keys,
  results_get (map (fun k => (k, f k)) keys) k = if existsb (key_eqb k) keys then Some (f k) else None.
Proof.
  intros f k keys. unfold results_get. induction keys as [|k' keys IH]; auto. simpl.
  destruct (key_eqb k k') eqn:E; simpl; auto. apply key_eqb_eq in E. subst. auto.
Qed.

Lemma existsb_key_In : forall k keys, existsb (key_eqb k) keys = true <-> In k keys.
Proof.
  intros. rewrite existsb_exists. split.
  - intros (x & H1 & H2). apply key_eqb_eq in H2. subst. auto.
  - intros H. exists k. split; auto. apply key_eqb_eq. auto.
Qed.

(** registering *)
Lemma register_all_in : forall ks b k,
  In k (bhb_registrations (fold_left bhb_register ks b)) <-> In k ks \/ In k (bhb_registrations b).
Proof.
  induction ks as [|x ks IH]; intros b k; simpl; [tauto|].
  rewrite IH. unfold bhb_register. destruct (existsb (key_eqb x) (bhb_registrations b)) eqn:E; simpl.
  - apply existsb_key_In in E. split; [tauto|]. intros [[->|H]|H]; auto.
  - rewrite in_app_iff. simpl. tauto.
Qed.

Lemma register_all_fot : forall ks b,
  bhb_fail_on_truncate (fold_left bhb_register ks b) = bhb_fail_on_truncate b.
Proof.
  induction ks as [|x ks IH]; intros b; simpl; auto. rewrite IH. unfold bhb_register.
  destruct (existsb _ _); auto.
Qed.

Lemma register_all_nodup : forall ks b, NoDup (bhb_registrations b) ->
  NoDup (bhb_registrations (fold_left bhb_register ks b)).
Proof.
  induction ks as [|x ks IH]; intros b H; simpl; auto. apply IH. unfold bhb_register.
  destruct (existsb (key_eqb x) (bhb_registrations b)) eqn:E; simpl; auto.
  apply NoDup_Add with (a := x) (l := bhb_registrations b).
  - rewrite <- (app_nil_r (bhb_registrations b)) at 1. apply Add_app.
  - split; auto. intros Hin. apply existsb_key_In in Hin. congruence.
Qed.

(** The full story: register keys, iterate in any order, feed chunks, finish, look up. *)
Theorem body_hash_result : forall fot keys order chunks k,
  Permutation order (bhb_registrations (fold_left bhb_register keys (bhb_new fot))) ->
  exists sts bh rs,
    hash_chunks (bhb_build (fold_left bhb_register keys (bhb_new fot)) order) chunks = Val (sts, bh)
    /\ bh_finish hash bh = Val rs
    /\ (In k keys -> results_get rs k = Some (expected_result hash fot k (concat chunks)))
    /\ (~ In k keys -> results_get rs k = None).
Proof.
  intros fot keys order chunks k P.
  destruct (hash_body_results (fold_left bhb_register keys (bhb_new fot)) order chunks)
    as (sts & bh & H1 & H2 & H3).
  rewrite register_all_fot in H3. simpl in H3.
  exists sts, bh. eexists. split; eauto. split; eauto. rewrite results_get_map.
  assert (In k order <-> In k keys) as X.
  { rewrite (Permutation_in' eq_refl P). rewrite register_all_in. simpl. tauto. }
  destruct (existsb (key_eqb k) order) eqn:E.
  - apply existsb_key_In in E. apply X in E. split; auto. tauto.
  - split; auto. intros Hin. apply X in Hin. apply existsb_key_In in Hin. congruence.
Qed.

End Hash.

(** Done *)
Theorem done_is_final : forall b order chunks sts bh more,
  hash_chunks (bhb_build b order) chunks = Val (sts, bh) -> In Done sts ->
  exists sts', hash_chunks bh more = Val (sts', bh) /\ Forall (eq Done) sts'.
Proof.
  intros b order chunks sts bh more H Hd.
  destruct (hash_chunks_ok _ _ chunks [] _ (bh_new_ok b order)) as (sts1 & bh1 & H1 & H2 & H3 & H4 & H5).
  rewrite H in H1. inv H1. specialize (H5 Hd).
  destruct (hash_chunks_ok _ _ more _ _ H2) as (sts' & bh' & I1 & I2 & I3 & I4 & I5).
  destruct (I4 H5) as [-> Hf]. eauto.
Qed.

Lemma hash_chunks_app : forall c1 c2 bh,
  hash_chunks bh (c1 ++ c2) =
  let! (s1, bh1) := hash_chunks bh c1 in
  let! (s2, bh2) := hash_chunks bh1 c2 in Val (s1 ++ s2, bh2).
Proof.
  induction c1 as [|c c1 IH]; intros c2 bh; simpl.
  - destruct (hash_chunks bh c2) as [[s bh2]|]; auto.
  - destruct (hash_chunk bh c) as [[s bh1]|]; simpl; auto. rewrite IH.
    destruct (hash_chunks bh1 c1) as [[s1 bh2]|]; simpl; auto.
    destruct (hash_chunks bh2 c2) as [[s2 bh3]|]; simpl; auto.
Qed.

(** When exactly is Done reported. *)
Lemma entry_inactive_iff : forall fot p e, entry_ok fot p e ->
  entry_is_active fot e = false <-> satisfied fot p (fst e).
Proof.
  intros fot p [[[limit alg] canon] [h tr]] (o & bc & H1 & H2 & H3 & H4).
  unfold entry_is_active, entry_active, satisfied. cbn [fst snd]. fold len.
  rewrite orb_false_iff, negb_false_iff, (ch_done_ok _ _ _ _ H2). split.
  - intros [(n & -> & L) Hb]. exists n, o, bc. split; auto. split; auto.
    destruct fot; auto. simpl in Hb. apply negb_false_iff in Hb.
    destruct (H3 Hb) as (m & Hm & Lm). injection Hm as ->. auto.
  - intros (n & o' & bc' & -> & R & L). destruct (run_det _ _ _ _ _ _ H1 R) as [<- <-].
    destruct fot; simpl.
    + fold (len o) in L. split; [exists n; split; auto; lia|]. rewrite H4; auto. exists n. auto.
    + split; auto. exists n. auto.
Qed.

Theorem done_iff : forall b order chunks c sts bh,
  hash_chunks (bhb_build b order) (chunks ++ [c]) = Val (sts, bh) ->
  (last sts Interested = Done <->
   Forall (satisfied (bhb_fail_on_truncate b) (concat (chunks ++ [c]))) order).
Proof.
  intros b order chunks c sts bh H. rewrite hash_chunks_app in H.
  destruct (hash_chunks_ok _ _ chunks [] _ (bh_new_ok b order)) as (sts1 & bh1 & H1 & H2 & _).
  rewrite H1 in H. cbn [bind hash_chunks] in H.
  destruct (hash_chunk_ok _ _ _ _ c H2) as (bh2 & I1 & I2 & _). rewrite I1 in H. cbn [bind] in H.
  injection H as <- <-. rewrite last_last. rewrite concat_app. cbn [concat]. rewrite app_nil_r.
  simpl in I2. destruct I2 as [F K E _ _]. unfold all_inactive. rewrite F, <- K.
  rewrite Forall_map.
  assert (forallb (fun e => negb (entry_is_active (bhb_fail_on_truncate b) e)) (bh_hashers bh2) = true
    <-> Forall (fun x => satisfied (bhb_fail_on_truncate b) (concat chunks ++ c) (fst x)) (bh_hashers bh2)) as X.
  { rewrite forallb_forall, Forall_forall. rewrite Forall_forall in E.
    split; intros X e He; specialize (X e He); specialize (E e He).
    - apply entry_inactive_iff; auto. apply negb_true_iff. auto.
    - apply negb_true_iff. eapply entry_inactive_iff; eauto. }
  rewrite <- X. destruct (forallb _ _); split; congruence.
Qed.

