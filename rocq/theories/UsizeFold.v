(** Counters of bounded width: with checks of overflows, results are right if there are
    any; without, the bytes counted are right modulo the number of values.  Proofs for C82. *)

From Coq Require Import Permutation.
From Verif Require Import Base Utf8 Canon BodyHash Domain Signature Crypto Format Sign Verify SpecCanon SpecHash SpecSign Usize
  CanonProofs BodyHashProofs SignProofs UsizeProofs Lib.
Import ListNotations.
Open Scope N_scope.

(** ** With checks *)

Section Checks.
Variable max : N.

Lemma usize_checked : forall n m, usize max true n = Val m -> m = n /\ n <= max.
Proof. intros n m H. unfold usize in H. destruct (n <=? max) eqn:L; [|discriminate]. injection H as <-. lia. Qed.

Lemma canon_checked : forall c bc r, canonicalize_chunk_usize max true bc c = Val r -> canonicalize_chunk bc c = Val r.
Proof.
  induction c as [|b c IH]; intros bc r H; cbn [canonicalize_chunk_usize canonicalize_chunk] in *; [exact H|].
  destruct (canon_step bc b) as [[o [kind st bl el]]|]; cbn [bind] in *; [|discriminate]. unfold bc_usize in H. cbn [bc_empty_lines bc_kind bc_state bc_blank_line] in H.
  destruct (usize max true (N.of_nat el)) as [n|] eqn:U; cbn [bind] in H; [|discriminate]. apply usize_checked in U. destruct U as (-> & _). rewrite Nat2N.id in H.
  destruct (canonicalize_chunk_usize max true _ c) as [[o' bc2]|] eqn:X; cbn [bind] in H; [|discriminate]. apply IH in X. rewrite X. exact H.
Qed.

Lemma update_checked : forall h c st h', ch_update_usize max true h c = Val (st, h') -> ch_update h c = Val (st, h') /\ ch_bytes_written h' <= max.
Proof.
  intros h c st h' H. unfold ch_update_usize in H. destruct (ch_update h c) as [[st1 [alg data length written]]|]; cbn [bind ch_bytes_written ch_alg ch_data ch_length] in H; [|discriminate].
  destruct (usize max true written) as [n|] eqn:U; cbn [bind] in H; [|discriminate]. apply usize_checked in U. destruct U as (-> & L). injection H as <- <-. auto.
Qed.

Lemma lazy_checked : forall chunk lz r, lazy_chunk_usize max true chunk lz = Val r -> lazy_chunk chunk lz = Val r.
Proof.
  intros chunk lz r H. unfold lazy_chunk_usize, lazy_chunk in *. destruct (lz_chunk lz); [exact H|].
  destruct (canonicalize_chunk_usize max true (lz_canon lz) chunk) as [[c bc]|] eqn:X; cbn [bind] in H; [|discriminate]. apply canon_checked in X. rewrite X. exact H.
Qed.

Lemma entries_checked : forall fot chunk es ls lr r, hash_entries_usize max true fot chunk ls lr es = Val r -> hash_entries fot chunk ls lr es = Val r.
Proof.
  intros fot chunk. induction es as [|[[[limit alg] kind] [h tr]] es IH]; intros ls lr r H; cbn [hash_entries_usize hash_entries] in *; [exact H|].
  destruct (entry_active fot h tr).
  - assert (forall x, (match kind with Simple => let! (c, ls1) := lazy_chunk_usize max true chunk ls in Val (c, ls1, lr)
                                     | Relaxed => let! (c, lr1) := lazy_chunk_usize max true chunk lr in Val (c, ls, lr1) end) = Val x ->
                      (match kind with Simple => let! (c, ls1) := lazy_chunk chunk ls in Val (c, ls1, lr)
                                     | Relaxed => let! (c, lr1) := lazy_chunk chunk lr in Val (c, ls, lr1) end) = Val x) as Z.
    { intros x. destruct kind.
      - destruct (lazy_chunk_usize max true chunk ls) as [[c l]|] eqn:X; cbn [bind]; [|discriminate]. apply lazy_checked in X. rewrite X. auto.
      - destruct (lazy_chunk_usize max true chunk lr) as [[c l]|] eqn:X; cbn [bind]; [|discriminate]. apply lazy_checked in X. rewrite X. auto. }
    match type of H with bind ?x _ = _ => destruct x as [[[c ls1] lr1]|]; cbn [bind] in H; [|discriminate] end. rewrite (Z _ eq_refl). cbn [bind].
    destruct (ch_update_usize max true h c) as [[st h1]|] eqn:U; cbn [bind] in H; [|discriminate]. apply update_checked in U. destruct U as (U & _). rewrite U. cbn [bind].
    destruct st; destruct (hash_entries_usize max true fot chunk ls1 lr1 es) as [[[[es1 ls2] lr2] d2]|] eqn:Y; cbn [bind] in H; try discriminate; apply IH in Y; rewrite Y; exact H.
  - destruct (hash_entries_usize max true fot chunk ls lr es) as [[[[es1 ls2] lr2] d2]|] eqn:Y; cbn [bind] in H; [|discriminate]. apply IH in Y. rewrite Y. exact H.
Qed.

Lemma chunks_checked : forall cs bh bh', hash_chunks_usize max true bh cs = Val bh' -> exists sts, hash_chunks bh cs = Val (sts, bh').
Proof.
  induction cs as [|c cs IH]; intros bh bh' H; cbn [hash_chunks_usize hash_chunks] in *; [injection H as <-; eauto|].
  destruct (hash_chunk_usize max true bh c) as [[st bh1]|] eqn:X; cbn [bind] in H; [|discriminate]. unfold hash_chunk_usize in X.
  match type of X with bind ?y _ = _ => destruct y as [[[[es ls] lr] d]|] eqn:Y; cbn [bind] in X; [|discriminate] end. apply entries_checked in Y.
  assert (hash_chunk bh c = Val (st, bh1)) as Z. { unfold hash_chunk. rewrite Y. exact X. }
  rewrite Z. cbn [bind]. destruct (IH _ _ H) as (sts & S). rewrite S. cbn [bind]. eauto.
Qed.

Definition counted (n : N) (r : BodyHasherKey * BodyHashResult) : Prop := match snd r with Ok (_, c) => c <= n | Err _ => True end.

Lemma finish_checked : forall hash fot es fs fr r, Forall (fun e => ch_bytes_written (fst (snd e)) <= max) es ->
  finish_entries_usize max true hash fot fs fr es = Val r -> finish_entries hash fot fs fr es = Val r /\ Forall (counted max) r.
Proof.
  intros hash fot. induction es as [|[[[limit alg] kind] [h tr]] es IH]; intros fs fr r F H; cbn [finish_entries_usize finish_entries] in *; [injection H as <-; auto|].
  inversion_clear F as [|? ? Fe F']. cbn [fst snd] in Fe.
  match type of H with bind ?x _ = _ => destruct x as [[[[h1 tr1] fs1] fr1]|] eqn:X; cbn [bind] in H; [|discriminate] end.
  assert ((if entry_active fot h tr then
      let! (cchunk, fs1, fr1) := match kind with Simple => let! (c, fs1) := finish_chunk fs in Val (c, fs1, fr) | Relaxed => let! (c, fr1) := finish_chunk fr in Val (c, fs, fr1) end in
      let! (status, hasher1) := ch_update h cchunk in Val (hasher1, match status with Truncated => true | AllConsumed => tr end, fs1, fr1)
    else Val (h, tr, fs, fr)) = Val (h1, tr1, fs1, fr1) /\ ch_bytes_written h1 <= max) as (Y & L).
  { destruct (entry_active fot h tr); [|injection X as <- <- <- <-; auto].
    match type of X with bind ?x _ = _ => destruct x as [[[c fs2] fr2]|]; cbn [bind] in X |- *; [|discriminate] end.
    destruct (ch_update_usize max true h c) as [[st h2]|] eqn:U; cbn [bind] in X; [|discriminate]. apply update_checked in U. destruct U as (U & L). rewrite U. cbn [bind].
    injection X as <- <- <- <-. auto. }
  rewrite Y. cbn [bind]. destruct (finish_entries_usize max true hash fot fs1 fr1 es) as [rest|] eqn:R; cbn [bind] in H; [|discriminate]. injection H as <-.
  apply IH in R; [|exact F']. destruct R as (R & Q). rewrite R. cbn [bind]. split; [reflexivity|]. constructor; [|exact Q].
  unfold counted. cbn [snd]. destruct (fot && tr1); [exact I|]. unfold ch_finish. destruct (is_some (ch_length h1) && negb (ch_is_done h1)); [exact I|]. exact L.
Qed.

Lemma hashed_checked : forall hash b order chunks r,
  (let! bh := hash_chunks_usize max true (bhb_build b order) chunks in bh_finish_usize max true hash bh) = Val r ->
  r = map (fun k => (k, expected_result hash (bhb_fail_on_truncate b) k (concat chunks))) order /\ Forall (counted max) r.
Proof.
  intros hash b order chunks r H. destruct (hash_chunks_usize max true (bhb_build b order) chunks) as [bh|] eqn:X; cbn [bind] in H; [|discriminate].
  assert (Forall (fun e : HasherEntry => ch_bytes_written (fst (snd e)) <= max) (bh_hashers bh)) as F.
  { destruct (seen_chunks max true chunks [] _ _ (seen_new max true b order) X) as (F & _). eapply Forall_impl; [|exact F]. intros e (L & _). exact L. }
  destruct (chunks_checked _ _ _ X) as (sts & Y). destruct (hash_body_results hash b order chunks) as (sts' & bh' & H1 & _ & H2). rewrite Y in H1. injection H1 as <- <-.
  unfold bh_finish_usize in H. apply finish_checked in H; [|exact F]. destruct H as (H & C). split; [|exact C].
  unfold bh_finish in H2. rewrite H in H2. injection H2 as ->. reflexivity.
Qed.
End Checks.

(** ** Without *)

Section Fold.
Variable max : N.

Definition fold_hasher (h : CountingHasher) : CountingHasher :=
  mkCH (ch_alg h) (ch_data h) (ch_length h) (ch_bytes_written h mod (max + 1)).
Definition fold_entry (e : HasherEntry) : HasherEntry := (fst e, (fold_hasher (fst (snd e)), snd (snd e))).
Definition fold_result (r : BodyHashResult) : BodyHashResult := match r with Ok (h, n) => Ok (h, n mod (max + 1)) | Err e => Err e end.
Definition limits_ok (h : CountingHasher) : Prop := forall n, ch_length h = Some n -> ch_bytes_written h <= n /\ n <= max.
Definition entry_limits (e : HasherEntry) : Prop := limits_ok (fst (snd e)).

Lemma fold_limited : forall h n, limits_ok h -> ch_length h = Some n -> fold_hasher h = h.
Proof. intros [alg data l w] n L H. unfold fold_hasher. cbn [ch_alg ch_data ch_length ch_bytes_written] in *. destruct (L n H) as (A & B). cbn [ch_bytes_written] in A. rewrite N.mod_small by lia. reflexivity. Qed.

Lemma fold_done : forall h, limits_ok h -> ch_is_done (fold_hasher h) = ch_is_done h.
Proof.
  intros h L. destruct (ch_length h) as [n|] eqn:H; [rewrite (fold_limited h n L H); reflexivity|]. unfold ch_is_done, fold_hasher. cbn [ch_length]. rewrite H. reflexivity.
Qed.

Lemma fold_active : forall fot h tr, limits_ok h -> entry_active fot (fold_hasher h) tr = entry_active fot h tr.
Proof. intros fot h tr L. unfold entry_active. rewrite fold_done by exact L. reflexivity. Qed.

Lemma limits_update : forall h c st h', limits_ok h -> ch_update h c = Val (st, h') -> limits_ok h'.
Proof.
  intros h c st h' L H. unfold ch_update in H. intros n. destruct (ch_length h) as [k|] eqn:K; [|injection H as _ <-; cbn [ch_length]; discriminate].
  destruct (L k K) as (A & B). destruct (ch_bytes_written h <=? k) eqn:Q; [|discriminate].
  destruct (len c <=? k - ch_bytes_written h) eqn:Z; injection H as _ <-; cbn [ch_length ch_bytes_written]; intros X; injection X as <-; [lia|].
  unfold len. rewrite firstn_length. lia.
Qed.

Lemma fold_update : forall h c, limits_ok h -> ch_update_usize max false (fold_hasher h) c = let! (st, h1) := ch_update h c in Val (st, fold_hasher h1).
Proof.
  intros h c L. unfold ch_update_usize. destruct (ch_length h) as [n|] eqn:H.
  - rewrite (fold_limited h n L H). destruct (ch_update h c) as [[st h1]|] eqn:U; cbn [bind]; [|reflexivity]. rewrite usize_any. reflexivity.
  - unfold ch_update, fold_hasher. cbn [ch_length ch_alg ch_data ch_bytes_written]. rewrite H. cbn [bind ch_length ch_alg ch_data ch_bytes_written]. rewrite usize_any. cbn [bind].
    rewrite N.add_mod_idemp_l by lia. reflexivity.
Qed.

Lemma chunk_fold : forall c bc, N.of_nat (pending bc + length c) <= 2 * max -> canonicalize_chunk_usize max false bc c = canonicalize_chunk bc c.
Proof.
  induction c as [|b c IH]; intros bc H; [reflexivity|]. cbn [canonicalize_chunk_usize canonicalize_chunk].
  destruct (canon_step bc b) as [[o [kind st bl el]]|] eqn:S; cbn [bind]; [|reflexivity]. apply step_pending in S. cbn [length] in H.
  unfold bc_usize. cbn [bc_empty_lines bc_kind bc_state bc_blank_line]. rewrite usize_fits; [|unfold pending in S at 1; cbn [bc_empty_lines] in S; lia].
  cbn [bind]. rewrite Nat2N.id, IH by lia. reflexivity.
Qed.

Definition lazy_bound (n : N) (chunk : list byte) (lz : LazyChunk) : Prop :=
  N.of_nat (pending (lz_canon lz)) <= match lz_chunk lz with None => n | Some _ => n + len chunk end.

Lemma lazy_fold : forall n chunk lz, n + len chunk <= 2 * max -> lazy_bound n chunk lz ->
  lazy_chunk_usize max false chunk lz = lazy_chunk chunk lz /\ forall c lz', lazy_chunk chunk lz = Val (c, lz') -> lazy_bound n chunk lz'.
Proof.
  intros n chunk lz H L. unfold lazy_chunk_usize, lazy_chunk, lazy_bound, len in *. destruct (lz_chunk lz) as [c0|] eqn:Z.
  - split; [reflexivity|]. intros c lz' X. injection X as <- <-. rewrite Z. exact L.
  - rewrite chunk_fold by lia. split; [reflexivity|]. intros c lz' X. destruct (canonicalize_chunk (lz_canon lz) chunk) as [[c1 bc]|] eqn:T; cbn [bind] in X; [|discriminate].
    injection X as <- <-. cbn [lz_canon lz_chunk]. apply chunk_pending in T. lia.
Qed.

Lemma entries_fold : forall fot chunk n, n + len chunk <= 2 * max -> forall es ls lr, lazy_bound n chunk ls -> lazy_bound n chunk lr -> Forall entry_limits es ->
  hash_entries_usize max false fot chunk ls lr (map fold_entry es) = (let! (es', ls', lr', d) := hash_entries fot chunk ls lr es in Val (map fold_entry es', ls', lr', d))
  /\ forall es' ls' lr' d, hash_entries fot chunk ls lr es = Val (es', ls', lr', d) -> lazy_bound n chunk ls' /\ lazy_bound n chunk lr' /\ Forall entry_limits es'.
Proof.
  intros fot chunk n Hn. induction es as [|[[[limit alg] kind] [h tr]] es IH]; intros ls lr Ls Lr F.
  { cbn [map hash_entries_usize hash_entries bind]. split; [reflexivity|]. intros es' ls' lr' d X. injection X as <- <- <- <-. auto. }
  inversion_clear F as [|? ? Fe F']. unfold entry_limits in Fe. cbn [fst snd] in Fe. cbn [map]. unfold fold_entry at 1. cbn [fst snd hash_entries_usize hash_entries]. rewrite fold_active by exact Fe.
  destruct (entry_active fot h tr).
  - set (u := match kind with Simple => let! (c, ls1) := lazy_chunk_usize max false chunk ls in Val (c, ls1, lr) | Relaxed => let! (c, lr1) := lazy_chunk_usize max false chunk lr in Val (c, ls, lr1) end).
    set (v := match kind with Simple => let! (c, ls1) := lazy_chunk chunk ls in Val (c, ls1, lr) | Relaxed => let! (c, lr1) := lazy_chunk chunk lr in Val (c, ls, lr1) end).
    assert (u = v /\ forall c ls1 lr1, v = Val (c, ls1, lr1) -> lazy_bound n chunk ls1 /\ lazy_bound n chunk lr1) as (-> & V).
    { subst u v. destruct kind.
      - destruct (lazy_fold n chunk ls Hn Ls) as (A & B). rewrite A. split; [reflexivity|]. intros c ls1 lr1 X. destruct (lazy_chunk chunk ls) as [[c0 l0]|]; cbn [bind] in X; [|discriminate]. injection X as <- <- <-. split; [exact (B _ _ eq_refl)|exact Lr].
      - destruct (lazy_fold n chunk lr Hn Lr) as (A & B). rewrite A. split; [reflexivity|]. intros c ls1 lr1 X. destruct (lazy_chunk chunk lr) as [[c0 l0]|]; cbn [bind] in X; [|discriminate]. injection X as <- <- <-. split; [exact Ls|exact (B _ _ eq_refl)]. }
    clearbody v. destruct v as [[[c ls1] lr1]|]; cbn [bind]; [|split; [reflexivity|discriminate]]. destruct (V _ _ _ eq_refl) as (Ls1 & Lr1).
    rewrite fold_update by exact Fe. destruct (ch_update h c) as [[st h1]|] eqn:U; cbn [bind]; [|split; [reflexivity|discriminate]]. pose proof (limits_update _ _ _ _ Fe U) as Fe1.
    rewrite fold_done by exact Fe1. destruct (IH ls1 lr1 Ls1 Lr1 F') as (A & B). rewrite A. destruct (hash_entries fot chunk ls1 lr1 es) as [[[[es1 ls2] lr2] d2]|]; cbn [bind].
    + destruct (B _ _ _ _ eq_refl) as (B1 & B2 & B3). destruct st; (split; [reflexivity|]); intros es' ls' lr' d X; injection X as <- <- <- <-; (split; [exact B1|]; split; [exact B2|]; constructor; [exact Fe1|exact B3]).
    + destruct st; (split; [reflexivity|discriminate]).
  - destruct (IH ls lr Ls Lr F') as (A & B). rewrite A. destruct (hash_entries fot chunk ls lr es) as [[[[es1 ls2] lr2] d2]|]; cbn [bind]; [|split; [reflexivity|discriminate]].
    destruct (B _ _ _ _ eq_refl) as (B1 & B2 & B3). split; [reflexivity|]. intros es' ls' lr' d X. injection X as <- <- <- <-. split; [exact B1|]. split; [exact B2|]. constructor; [exact Fe|exact B3].
Qed.

Definition fold_bh (bh : BodyHasher) : BodyHasher := mkBH (bh_fail_on_truncate bh) (map fold_entry (bh_hashers bh)) (bh_simple bh) (bh_relaxed bh).

Lemma chunks_fold : forall chunks n bh, n + len (concat chunks) <= 2 * max ->
  N.of_nat (pending (bh_simple bh)) <= n -> N.of_nat (pending (bh_relaxed bh)) <= n -> Forall entry_limits (bh_hashers bh) ->
  hash_chunks_usize max false (fold_bh bh) chunks = (let! (_, bh') := hash_chunks bh chunks in Val (fold_bh bh'))
  /\ forall sts bh', hash_chunks bh chunks = Val (sts, bh') -> Forall entry_limits (bh_hashers bh').
Proof.
  induction chunks as [|c chunks IH]; intros n bh Hn Ps Pr F.
  { cbn [hash_chunks_usize hash_chunks bind]. split; [reflexivity|]. intros sts bh' X. injection X as _ <-. exact F. }
  cbn [concat] in Hn. rewrite len_app in Hn. cbn [hash_chunks_usize hash_chunks]. unfold hash_chunk_usize, hash_chunk. cbn [fold_bh bh_fail_on_truncate bh_simple bh_relaxed bh_hashers].
  destruct (entries_fold (bh_fail_on_truncate bh) c n ltac:(lia) (bh_hashers bh) (mkLazy None (bh_simple bh)) (mkLazy None (bh_relaxed bh)) Ps Pr F) as (A & B). rewrite A.
  destruct (hash_entries _ _ _ _ _) as [[[[es ls] lr] d]|]; cbn [bind]; [|split; [reflexivity|discriminate]]. destruct (B _ _ _ _ eq_refl) as (B1 & B2 & B3).
  assert (forall lz, lazy_bound n c lz -> N.of_nat (pending (lz_canon lz)) <= n + len c) as Q. { intros lz L. unfold lazy_bound in L. destruct (lz_chunk lz); lia. }
  destruct (IH (n + len c) (mkBH (bh_fail_on_truncate bh) es (lz_canon ls) (lz_canon lr)) ltac:(lia) (Q _ B1) (Q _ B2) B3) as (C1 & C2).
  unfold fold_bh at 1 in C1. cbn [bh_fail_on_truncate bh_simple bh_relaxed bh_hashers] in C1. rewrite C1.
  destruct (hash_chunks _ chunks) as [[sts bh']|]; cbn [bind]; [|split; [reflexivity|discriminate]]. split; [reflexivity|]. intros sts' bh'' X. injection X as _ <-. exact (C2 _ _ eq_refl).
Qed.

Lemma finish_fold : forall hash fot es fs fr, Forall entry_limits es ->
  finish_entries_usize max false hash fot fs fr (map fold_entry es)
  = let! r := finish_entries hash fot fs fr es in Val (map (fun x => (fst x, fold_result (snd x))) r).
Proof.
  intros hash fot. induction es as [|[[[limit alg] kind] [h tr]] es IH]; intros fs fr F; [reflexivity|]. inversion_clear F as [|? ? Fe F']. unfold entry_limits in Fe. cbn [fst snd] in Fe.
  cbn [map]. unfold fold_entry at 1. cbn [fst snd finish_entries_usize finish_entries]. rewrite fold_active by exact Fe.
  assert (forall h1 tr1 fs1 fr1, limits_ok h1 ->
    (let res := if fot && tr1 then Err InputTruncated else match ch_finish hash (fold_hasher h1) with Some r => Ok r | None => Err InsufficientInput end in
     let! rest := finish_entries_usize max false hash fot fs1 fr1 (map fold_entry es) in Val ((limit, alg, kind, res) :: rest))
    = let! r := (let res := if fot && tr1 then Err InputTruncated else match ch_finish hash h1 with Some r => Ok r | None => Err InsufficientInput end in
                 let! rest := finish_entries hash fot fs1 fr1 es in Val ((limit, alg, kind, res) :: rest)) in
      Val (map (fun x => (fst x, fold_result (snd x))) r)) as K.
  { intros h1 tr1 fs1 fr1 L1. cbv zeta. rewrite IH by exact F'. destruct (finish_entries hash fot fs1 fr1 es) as [rest|]; cbn [bind map fst snd]; [|reflexivity].
    unfold ch_finish. rewrite fold_done by exact L1. cbn [fold_hasher ch_length ch_alg ch_data ch_bytes_written].
    destruct (fot && tr1); [reflexivity|]. destruct (is_some (ch_length h1) && negb (ch_is_done h1)); reflexivity. }
  destruct (entry_active fot h tr).
  - match goal with |- bind (bind ?x _) _ = _ => destruct x as [[[c fs1] fr1]|]; cbn [bind]; [|reflexivity] end.
    rewrite fold_update by exact Fe. destruct (ch_update h c) as [[st h1]|] eqn:U; cbn [bind]; [|reflexivity]. apply K. exact (limits_update _ _ _ _ Fe U).
  - cbn [bind]. apply K. exact Fe.
Qed.

Lemma hashed_fold : forall hash b order chunks, len (concat chunks) <= 2 * max -> (forall n alg kind, In (Some n, alg, kind) order -> n <= max) ->
  (let! bh := hash_chunks_usize max false (bhb_build b order) chunks in bh_finish_usize max false hash bh)
  = Val (map (fun k => (k, fold_result (expected_result hash (bhb_fail_on_truncate b) k (concat chunks)))) order).
Proof.
  intros hash b order chunks H O.
  assert (fold_bh (bhb_build b order) = bhb_build b order) as B.
  { unfold fold_bh, bhb_build. cbn [bh_fail_on_truncate bh_hashers bh_simple bh_relaxed]. rewrite map_map. f_equal. apply map_ext. intros [[limit alg] kind].
    unfold fold_entry, fold_hasher. cbn. rewrite N.mod_small by lia. reflexivity. }
  assert (Forall entry_limits (bh_hashers (bhb_build b order))) as F.
  { apply Forall_forall. intros e I. apply in_map_iff in I. destruct I as ([[limit alg] kind] & <- & I). intros n L. cbn in L. subst limit. cbn. split; [lia|]. exact (O _ _ _ I). }
  destruct (chunks_fold chunks 0 (bhb_build b order) ltac:(lia) ltac:(unfold pending; cbn; lia) ltac:(unfold pending; cbn; lia) F) as (A & G). rewrite B in A. rewrite A.
  destruct (hash_body_results hash b order chunks) as (sts & bh & H1 & _ & H2). rewrite H1 in *. cbn [bind]. specialize (G _ _ eq_refl).
  unfold bh_finish_usize, fold_bh. cbn [bh_fail_on_truncate bh_hashers bh_simple bh_relaxed]. rewrite finish_fold by exact G. unfold bh_finish in H2. rewrite H2. cbn [bind]. rewrite map_map. reflexivity.
Qed.
End Fold.

(** ** Signing and verification *)

Section Runs.
Variable E : Env.
Notation C := (env_crypto E).
Notation max := (env_usize_max E).

Lemma finish_panic : forall (A : Type) (x : outcome BodyHasher) (f : BodyHasher -> outcome BodyHashResults) (g : BodyHashResults -> outcome A),
  (let! bh := x in let! r := f bh in g r) = (let! r := (let! bh := x in f bh) in g r).
Proof. intros A [bh|] f g; reflexivity. Qed.

Theorem verify_checked : forall w headers config chunks o,
  verify_message_usize E true w headers config chunks = Val o -> verify_message E w headers config chunks = Val o.
Proof.
  intros w headers config chunks o H. unfold verify_message_usize, verify_message in *. destruct (verify_header E w headers config) as [[[[v log] t]|]|] eqn:V; cbn [bind] in *; try exact H.
  destruct (verifier_built _ _ _ _ _ _ _ V) as (b & ord & B). rewrite verifier_hashed, B. rewrite B, finish_panic in H.
  destruct (hash_body_results (hash_fn C) b ord chunks) as (sts & bh & H1 & _ & H2). rewrite H1. cbn [bind]. unfold verifier_finish. cbn [vf_body_hasher vf_tasks]. rewrite H2. cbn [bind].
  match type of H with bind ?x _ = _ => destruct x as [r|] eqn:X; cbn [bind] in H; [|discriminate] end. apply hashed_checked in X. destruct X as (-> & _). exact H.
Qed.

Theorem sign_checked : forall order headers rs chunks clock o,
  sign_message_usize E true order headers rs chunks clock = Val o -> sign_message E order headers rs chunks clock = Val o.
Proof.
  intros order headers rs chunks clock o H. unfold sign_message_usize, sign_message in *. destruct (prepare_signing E order headers rs) as [[s|e]|] eqn:P; cbn [bind] in *; try exact H.
  destruct (signer_built _ _ _ _ _ P) as (b & ord & B). rewrite signer_hashed, B. rewrite B, finish_panic in H.
  destruct (hash_body_results (hash_fn C) b ord chunks) as (sts & bh & H1 & _ & H2). rewrite H1. cbn [bind]. unfold sign. cbn [sg_body_hasher sg_tasks sg_headers]. rewrite H2. cbn [bind].
  match type of H with bind ?x _ = _ => destruct x as [r|] eqn:X; cbn [bind] in H; [|discriminate] end. apply hashed_checked in X. destruct X as (-> & _). exact H.
Qed.

Lemma counted_panic : forall hash b ord chunks alg kind, In (None, alg, kind) ord -> max < len (canonical_body kind (concat chunks)) ->
  (let! bh := hash_chunks_usize max true (bhb_build b ord) chunks in bh_finish_usize max true hash bh) = Panic.
Proof.
  intros hash b ord chunks alg kind I L. match goal with |- ?x = _ => destruct x as [r|] eqn:X end; [|reflexivity]. exfalso.
  apply hashed_checked in X. destruct X as (-> & F). rewrite Forall_map, Forall_forall in F. specialize (F _ I). unfold counted, expected_result, len in *. cbn [snd] in F. lia.
Qed.

Theorem verify_counts : forall w headers config chunks0 rs r sig chunks,
  verify_message E w headers config chunks0 = Val (Some rs) -> In r rs -> vr_status r = Success -> vr_signature r = Some sig -> s_body_length sig = None ->
  max < len (canonical_body (c_body (s_canonicalization sig)) (concat chunks)) ->
  verify_message_usize E true w headers config chunks = Panic.
Proof.
  intros w headers config chunks0 rs r sig chunks H I S G N L. unfold verify_message in H. unfold verify_message_usize.
  destruct (verify_header E w headers config) as [[[[v log] t]|]|] eqn:V; cbn [bind] in *; try discriminate H.
  destruct (verifier_built _ _ _ _ _ _ _ V) as (b & ord & B). rewrite verifier_hashed, B in H.
  destruct (hash_body_results (hash_fn C) b ord chunks0) as (sts & bh & H1 & _ & H2). rewrite H1 in H. cbn [bind] in H. unfold verifier_finish in H. cbn [vf_body_hasher vf_tasks] in H.
  rewrite H2 in H. cbn [bind] in H. match type of H with bind ?x _ = _ => destruct x as [rs'|] eqn:F; cbn [bind] in H; [|discriminate] end. injection H as ->.
  destruct (finish_success _ _ _ _ _ _ F I S G) as (key & K & R). unfold body_hasher_key in K. rewrite N in K. cbn [bind] in K. injection K as <-.
  rewrite results_get_map in R. destruct (existsb _ ord) eqn:X; [|contradiction]. apply existsb_key_In in X.
  rewrite B, finish_panic, (counted_panic _ _ _ _ _ _ X L). reflexivity.
Qed.

Theorem sign_counts : forall order headers rs chunks0 clock results r chunks,
  Forall (request_typed E) rs -> (forall l, Permutation (order l) l) ->
  sign_message E order headers rs chunks0 clock = Val (Ok results) -> In r rs -> (forall n, r_body_length E r <> ExactLen n) ->
  max < len (canonical_body (c_body (r_canonicalization E r)) (concat chunks)) ->
  sign_message_usize E true order headers rs chunks clock = Panic.
Proof.
  intros order headers rs chunks0 clock results r chunks T O H I N L. unfold sign_message in H. unfold sign_message_usize.
  destruct (prepare_spec E order headers rs T) as (e & _ & X). rewrite X in *. cbn [bind] in *. destruct e as [e|]; [discriminate|]. cbv zeta in *.
  set (b := fold_left bhb_register (map (key_of E) rs) (bhb_new false)) in *. cbn [sg_body_hasher]. rewrite finish_panic.
  rewrite (counted_panic _ b _ chunks (alg_hash (r_algorithm E r)) (c_body (r_canonicalization E r))); [reflexivity| |exact L].
  apply (Permutation_in _ (Permutation_sym (O _))). apply register_all_in. left. apply in_map_iff. exists r. split; [|exact I].
  unfold key_of, request_key, limit_of. destruct (r_body_length E r) as [| |n]; [reflexivity|reflexivity|destruct (N n eq_refl)].
Qed.

(** *** Without checks *)

Definition limited (l : list BodyHasherKey) : Prop := forall n alg kind, In (Some n, alg, kind) l -> n <= max.

Lemma register_limited : forall b k, limited (bhb_registrations b) -> limited [k] -> limited (bhb_registrations (bhb_register b k)).
Proof.
  intros b k A B n alg kind I. unfold bhb_register in I. destruct (existsb (key_eqb k) (bhb_registrations b)); [exact (A _ _ _ I)|].
  cbn [bhb_registrations] in I. apply in_app_iff in I. destruct I as [I|I]; [exact (A _ _ _ I)|exact (B _ _ _ I)].
Qed.

Lemma build_limited : forall ts b vts b', build_tasks E b ts = Val (vts, b') -> limited (bhb_registrations b) -> limited (bhb_registrations b').
Proof.
  induction ts as [|t ts IH]; intros b vts b' H L; cbn [build_tasks] in H; [injection H as _ <-; exact L|].
  match type of H with bind ?x _ = _ => destruct x as [[st b1]|] eqn:X; cbn [bind] in H; [|discriminate] end.
  destruct (build_tasks E b1 ts) as [[rest b2]|] eqn:Y; cbn [bind] in H; [|discriminate]. injection H as _ <-. apply (IH _ _ _ Y).
  destruct (vt_status t); try discriminate X; [injection X as _ <-; exact L|]. destruct (vt_signature t) as [sig|]; [|discriminate X].
  unfold body_hasher_key in X. destruct (s_body_length sig) as [n|]; cbn [bind] in X.
  - destruct (n <=? max) eqn:Q; cbn [bind] in X; [|discriminate]. injection X as _ <-. apply register_limited; [exact L|].
    intros m alg kind [I|[]]. injection I as <- _ _. lia.
  - injection X as _ <-. apply register_limited; [exact L|]. intros m alg kind [I|[]]. discriminate I.
Qed.

Lemma verifier_limited : forall w headers config v log t, (forall l, Permutation (w_hasher_order w l) l) -> verify_header E w headers config = Val (Some (v, log, t)) ->
  exists b ord, vf_body_hasher v = bhb_build b ord /\ limited ord.
Proof.
  intros w headers config v log t O Hp. unfold verify_header in Hp. destruct (find_signatures E headers config (w_clock w)) as [[ts|]|]; cbn [bind] in Hp; try discriminate.
  destruct (add_lookups (env_idna E) [] ts) as [ps|]; cbn [bind] in Hp; [|discriminate]. destruct (spawn_all _ _ _ _) as [set el].
  destruct (process_results E headers config (map snd set) ts) as [ts'|]; cbn [bind] in Hp; [|discriminate].
  destruct (build_tasks E _ ts') as [[vts b]|] eqn:B; cbn [bind] in Hp; [|discriminate]. injection Hp as <- _ _. cbn [vf_body_hasher]. eexists _, _. split; [reflexivity|].
  intros n alg kind I. apply (Permutation_in _ (O _)) in I. revert n alg kind I. apply (build_limited _ _ _ _ B). intros n alg kind [].
Qed.

Lemma get_fold : forall f k keys, results_get (map (fun k => (k, fold_result max (f k))) keys) k = option_map (fold_result max) (results_get (map (fun k => (k, f k)) keys) k).
Proof. intros f k keys. rewrite !results_get_map with (f := fun k => fold_result max (f k)), results_get_map. destruct (existsb _ keys); reflexivity. Qed.

Lemma finish_tasks_fold : forall f keys ts, finish_tasks max (map (fun k => (k, fold_result max (f k))) keys) ts = finish_tasks max (map (fun k => (k, f k)) keys) ts.
Proof.
  intros f keys. induction ts as [|t ts IH]; [reflexivity|]. cbn [finish_tasks]. rewrite IH. destruct (vr_status t); [|reflexivity]. destruct (vr_signature t) as [sig|]; [|reflexivity].
  unfold verify_body_hash. destruct (body_hasher_key max sig) as [key|]; cbn [bind]; [|reflexivity]. rewrite get_fold.
  destruct (results_get (map (fun k => (k, f k)) keys) key) as [[[h n]|[]]|]; reflexivity.
Qed.

Theorem verify_folded : forall w headers config chunks, (forall l, Permutation (w_hasher_order w l) l) -> len (concat chunks) <= 2 * max ->
  verify_message_usize E false w headers config chunks = verify_message E w headers config chunks.
Proof.
  intros w headers config chunks O L. unfold verify_message_usize, verify_message. destruct (verify_header E w headers config) as [[[[v log] t]|]|] eqn:V; cbn [bind]; try reflexivity.
  destruct (verifier_limited _ _ _ _ _ _ O V) as (b & ord & B & Q). rewrite verifier_hashed, B, finish_panic, (hashed_fold max (hash_fn C) b ord chunks L Q). cbn [bind].
  destruct (hash_body_results (hash_fn C) b ord chunks) as (sts & bh & H1 & _ & H2). rewrite H1. cbn [bind]. unfold verifier_finish. cbn [vf_body_hasher vf_tasks]. rewrite H2. cbn [bind].
  rewrite finish_tasks_fold. reflexivity.
Qed.

(** what a request gets of the hash of the body *)
Definition hashed_length (r : SignRequest E) (n : N) : option N :=
  match r_body_length E r with NoLimit => None | MessageContent => Some (n mod (max + 1)) | ExactLen k => Some k end.

Lemma produce_fields : forall u key format headers o, produce_signature E u key format headers = Val (Ok o) ->
  s_body_length (so_signature o) = u_body_length u /\ s_body_hash (so_signature o) = u_body_hash u.
Proof.
  intros u key format headers o H. unfold produce_signature in H. match type of H with bind ?x _ = _ => destruct x as [[value i]|]; cbn [bind] in H; [|discriminate] end.
  match type of H with (if ?x then _ else _) = _ => destruct x; [discriminate|] end. match type of H with match ?x with Some _ => _ | None => _ end = _ => destruct x as [sd|]; [|discriminate] end.
  match type of H with bind ?x _ = _ => destruct x as [v|]; cbn [bind] in H; [|discriminate] end. injection H as <-. split; reflexivity.
Qed.

Lemma perform_fold : forall now r headers f keys, let results := map (fun k => (k, f k)) keys in let folded := map (fun k => (k, fold_result max (f k))) keys in
  (forall n alg kind h c, f (Some n, alg, kind) = Ok (h, c) -> c = n) ->
  (r_body_length E r <> MessageContent -> perform_signing E now r headers folded = perform_signing E now r headers results)
  /\ (r_body_length E r = MessageContent -> forall o, perform_signing E now r headers folded = Val (Ok o) ->
        exists h c, f (None, alg_hash (r_algorithm E r), c_body (r_canonicalization E r)) = Ok (h, c)
          /\ s_body_length (so_signature o) = Some (c mod (max + 1)) /\ s_body_hash (so_signature o) = h).
Proof.
  intros now r headers f keys results folded Hf. unfold perform_signing. destruct (r_body_length E r) as [| |n] eqn:Bl; cbn [bl_to_usize].
  - split; [|discriminate]. intros _. unfold folded. rewrite get_fold, results_get_map. unfold results. rewrite results_get_map.
    destruct (existsb (key_eqb (request_key E None r)) keys); cbn [option_map]; [|reflexivity]. destruct (f (request_key E None r)) as [[h c]|[]]; reflexivity.
  - split; [congruence|]. intros _ o H. unfold folded in H. rewrite get_fold in H. rewrite results_get_map in H. destruct (existsb (key_eqb (request_key E None r)) keys); cbn [option_map] in H; [|discriminate].
    change (request_key E None r) with (None (A := N), alg_hash (r_algorithm E r), c_body (r_canonicalization E r)) in H.
    destruct (f (None, alg_hash (r_algorithm E r), c_body (r_canonicalization E r))) as [[h c]|[]]; cbn [fold_result] in H; try discriminate.
    destruct (c mod (max + 1) <=? u64_max); [|discriminate]. match type of H with (if ?x then _ else _) = _ => destruct x; [discriminate|] end.
    match type of H with (if ?x then _ else _) = _ => destruct x; [discriminate|] end. apply produce_fields in H. cbn [u_body_length u_body_hash] in H. exists h, c. destruct H. auto.
  - split; [|discriminate]. intros _. destruct (n <=? max) eqn:Q; [|reflexivity]. unfold folded. rewrite get_fold, results_get_map. unfold results. rewrite results_get_map.
    destruct (existsb (key_eqb (request_key E (Some n) r)) keys); cbn [option_map]; [|reflexivity]. change (request_key E (Some n) r) with (Some n, alg_hash (r_algorithm E r), c_body (r_canonicalization E r)).
    destruct (f (Some n, alg_hash (r_algorithm E r), c_body (r_canonicalization E r))) as [[h c]|e] eqn:F; [|reflexivity]. apply Hf in F. subst c. cbn [fold_result].
    rewrite N.mod_small by lia. reflexivity.
Qed.

Lemma sign_tasks_fold : forall clock headers f keys, (forall n alg kind h c, f (Some n, alg, kind) = Ok (h, c) -> c = n) ->
  forall ts i rs rs', sign_tasks E clock i headers (map (fun k => (k, f k)) keys) ts = Val rs ->
  sign_tasks E clock i headers (map (fun k => (k, fold_result max (f k))) keys) ts = Val rs' ->
  length rs' = length ts /\
  forall j r res res', nth_error ts j = Some r -> nth_error rs j = Some res -> nth_error rs' j = Some res' ->
    (r_body_length E r <> MessageContent -> res' = res)
    /\ (r_body_length E r = MessageContent -> forall o, res' = Ok o ->
        exists h c, f (None, alg_hash (r_algorithm E r), c_body (r_canonicalization E r)) = Ok (h, c)
          /\ s_body_length (so_signature o) = Some (c mod (max + 1)) /\ s_body_hash (so_signature o) = h).
Proof.
  intros clock headers f keys Hf. induction ts as [|t ts IH]; intros i rs rs' H H'; cbn [sign_tasks] in H, H'.
  { injection H as <-. injection H' as <-. split; [reflexivity|]. intros [|j] r res res' X; discriminate X. }
  destruct (perform_signing E (clock i) t headers (map (fun k => (k, f k)) keys)) as [res0|] eqn:P; cbn [bind] in H; [|discriminate].
  destruct (perform_signing E (clock i) t headers (map (fun k => (k, fold_result max (f k))) keys)) as [res0'|] eqn:P'; cbn [bind] in H'; [|discriminate].
  destruct (sign_tasks E clock (S i) headers (map (fun k => (k, f k)) keys) ts) as [rest|] eqn:R; cbn [bind] in H; [|discriminate]. injection H as <-.
  destruct (sign_tasks E clock (S i) headers (map (fun k => (k, fold_result max (f k))) keys) ts) as [rest'|] eqn:R'; cbn [bind] in H'; [|discriminate]. injection H' as <-.
  destruct (IH _ _ _ R R') as (Len & J). split; [cbn [length]; rewrite Len; reflexivity|]. intros [|j] r res res' X Y Z; cbn [nth_error] in X, Y, Z; [|exact (J _ _ _ _ X Y Z)].
  injection X as <-. injection Y as <-. injection Z as <-. destruct (perform_fold (clock i) t headers f keys Hf) as (A & B). split.
  - intros N. pose proof (eq_trans (eq_sym P') (eq_trans (A N) P)) as Q. injection Q as ->. reflexivity.
  - intros M o ->. exact (B M o P').
Qed.

Theorem sign_folded : forall order headers rs chunks clock results results',
  Forall (request_typed E) rs -> (forall l, Permutation (order l) l) -> len (concat chunks) <= 2 * max ->
  sign_message E order headers rs chunks clock = Val (Ok results) -> sign_message_usize E false order headers rs chunks clock = Val (Ok results') ->
  length results' = length rs /\
  forall j r res res', nth_error rs j = Some r -> nth_error results j = Some res -> nth_error results' j = Some res' ->
    let cb := canonical_body (c_body (r_canonicalization E r)) (concat chunks) in
    (r_body_length E r <> MessageContent -> res' = res)
    /\ (r_body_length E r = MessageContent -> forall o, res' = Ok o ->
        s_body_length (so_signature o) = Some (len cb mod (max + 1)) /\ s_body_hash (so_signature o) = hash_fn C (alg_hash (r_algorithm E r)) cb).
Proof.
  intros order headers rs chunks clock results results' T O L H H'. unfold sign_message in H. unfold sign_message_usize in H'.
  destruct (prepare_spec E order headers rs T) as (e & Ck & X). rewrite X in H, H'. cbn [bind] in H, H'. destruct e as [e|]; [discriminate|]. cbv zeta in H, H'.
  set (b := fold_left bhb_register (map (key_of E) rs) (bhb_new false)) in *. cbn [sg_body_hasher sg_tasks sg_headers] in H'.
  assert (limited (order (bhb_registrations b))) as Q.
  { intros n alg kind I. apply (Permutation_in _ (O _)) in I. apply register_all_in in I. destruct I as [I|[]]. apply in_map_iff in I. destruct I as (r & K & I).
    apply checks_none in Ck. destruct Ck as (_ & _ & Cr). rewrite Forall_forall in Cr. specialize (Cr r I).
    unfold key_of, request_key, limit_of in K. injection K as K _ _. destruct (r_body_length E r) as [| |k] eqn:Bl; try discriminate K. injection K as ->.
    apply first_of_none_iff in Cr. rewrite Forall_forall in Cr. specialize (Cr (exists n, r_body_length E r = ExactLen n /\ max < n, ReqOverflow)). cbn [fst] in Cr.
    destruct (N.le_gt_cases n max) as [G|G]; [exact G|]. exfalso. apply Cr; [unfold request_checks; do 8 right; left; reflexivity|eauto]. }
  rewrite signer_hashed in H. cbn [sg_body_hasher sg_tasks sg_headers] in H. rewrite finish_panic, (hashed_fold max (hash_fn C) b _ chunks L Q) in H'. cbn [bind] in H'.
  destruct (hash_body_results (hash_fn C) b (order (bhb_registrations b)) chunks) as (sts & bh & H1 & _ & H2). rewrite H1 in H. cbn [bind] in H. unfold sign in H. cbn [sg_body_hasher sg_tasks sg_headers] in H.
  rewrite H2 in H. cbn [bind] in H. match type of H with bind ?x _ = _ => destruct x as [rs1|] eqn:S1; cbn [bind] in H; [|discriminate] end. injection H as <-.
  match type of H' with bind ?x _ = _ => destruct x as [rs2|] eqn:S2; cbn [bind] in H'; [|discriminate] end. injection H' as <-.
  set (f := fun k => expected_result (hash_fn C) (bhb_fail_on_truncate b) k (concat chunks)) in *.
  assert (forall n alg kind h c, f (Some n, alg, kind) = Ok (h, c) -> c = n) as Hf.
  { intros n alg kind h c F. unfold f, expected_result in F. destruct (_ <? n); [discriminate|]. destruct (_ && _); [discriminate|]. injection F as _ <-. reflexivity. }
  destruct (sign_tasks_fold clock headers f (order (bhb_registrations b)) Hf rs 0%nat rs1 rs2 S1 S2) as (Len & J). split; [exact Len|].
  intros j r res res' A B D. destruct (J j r res res' A B D) as (J1 & J2). split; [exact J1|]. intros M o R. destruct (J2 M o R) as (h & c & F & U & V).
  unfold f, expected_result in F. injection F as <- <-. auto.
Qed.
End Runs.
