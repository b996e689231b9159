(** Counters of bounded width: nothing changes for bodies that can be counted; many empty
    lines go unnoticed otherwise.  Proofs for C82. *)

From Coq Require Import Permutation.
From Verif Require Import Base Utf8 Canon BodyHash Domain Signature Crypto Format Sign Verify SpecCanon SpecSign Usize
  CanonProofs BodyHashProofs SignProofs Lib.
Import ListNotations.
Open Scope N_scope.

(** ** Short bodies *)

(** bytes that may still be output *)
Definition pending (bc : BodyCanon) : nat :=
  (2 * bc_empty_lines bc + match bc_state bc with SCr => 1 | SWsp => 1 | SWspCr => 2 | _ => 0 end)%nat.

Lemma crlfs_length : forall n, length (crlfs n) = (2 * n)%nat.
Proof. induction n as [|n IH]; [reflexivity|]. cbn [crlfs]. rewrite app_length, IH. unfold CRLF. cbn [length]. lia. Qed.

Lemma crlfs_repeat : forall n, crlfs n = concat (repeat [13; 10] n).
Proof. induction n as [|n IH]; [reflexivity|]. cbn [crlfs repeat concat]. rewrite IH. reflexivity. Qed.

Ltac measure := unfold pending, set_state, flush_empty_lines, line_end, CRLF in *; cbn [bc_state bc_empty_lines bc_kind bc_blank_line length app] in *;
  rewrite ?app_length, ?crlfs_length; cbn [length]; lia.

Lemma step_pending : forall bc b out bc', canon_step bc b = Val (out, bc') -> (length out + pending bc' <= pending bc + 1)%nat.
Proof.
  intros [kind st bl el] b out bc' H. unfold canon_step, step_simple, step_relaxed in H. cbn [bc_kind bc_state] in H.
  destruct kind, st; cbn [flush_empty_lines bc_kind bc_state bc_empty_lines] in H;
    repeat match type of H with
           | context [if ?x then _ else _] => destruct x
           end;
    try discriminate H; unfold line_end in H; cbn [bc_kind bc_blank_line bc_empty_lines bc_state] in H; try destruct bl; injection H as <- <-; measure.
Qed.

Lemma chunk_pending : forall c bc out bc', canonicalize_chunk bc c = Val (out, bc') -> (length out + pending bc' <= pending bc + length c)%nat.
Proof.
  induction c as [|b c IH]; intros bc out bc' H; cbn [canonicalize_chunk] in H; [injection H as <- <-; cbn [length]; lia|].
  destruct (canon_step bc b) as [[o bc1]|] eqn:S; cbn [bind] in H; [|discriminate]. destruct (canonicalize_chunk bc1 c) as [[o' bc2]|] eqn:T; cbn [bind] in H; [|discriminate].
  injection H as <- <-. apply step_pending in S. apply IH in T. rewrite app_length. cbn [length]. lia.
Qed.

Lemma finish_pending : forall bc out, bc_finish bc = Val out -> (length out <= pending bc + 2)%nat.
Proof.
  intros [kind st bl el] out H. unfold bc_finish in H. cbn [bc_kind bc_state] in H.
  destruct kind, st; try discriminate H; cbn [flush_empty_lines bc_empty_lines] in H; injection H as <-; measure.
Qed.

Section Short.
Variable max : N.
Variable checks : bool.

Lemma usize_short : forall n, n <= max -> usize max checks n = Val n.
Proof. intros n H. unfold usize. destruct (n <=? max) eqn:L; [reflexivity|lia]. Qed.

Lemma bc_short : forall bc, N.of_nat (pending bc) <= max -> bc_usize max checks bc = Val bc.
Proof.
  intros [kind st bl el] H. unfold bc_usize, pending in *. cbn [bc_empty_lines bc_state bc_kind bc_blank_line] in *. rewrite usize_short by lia. cbn [bind].
  rewrite Nat2N.id. reflexivity.
Qed.

Lemma chunk_short : forall c bc, N.of_nat (pending bc + length c) <= max -> canonicalize_chunk_usize max checks bc c = canonicalize_chunk bc c.
Proof.
  induction c as [|b c IH]; intros bc H; [reflexivity|]. cbn [canonicalize_chunk_usize canonicalize_chunk].
  destruct (canon_step bc b) as [[o bc1]|] eqn:S; cbn [bind]; [|reflexivity]. apply step_pending in S. cbn [length] in H.
  rewrite bc_short by lia. cbn [bind]. rewrite IH by lia. reflexivity.
Qed.

Lemma update_length : forall h bytes st h', ch_update h bytes = Val (st, h') -> ch_bytes_written h' <= ch_bytes_written h + len bytes.
Proof.
  intros h bytes st h' H. unfold ch_update in H. destruct (ch_length h) as [n|].
  - destruct (ch_bytes_written h <=? n); [|discriminate]. destruct (len bytes <=? n - ch_bytes_written h) eqn:L; injection H as <- <-; cbn [ch_bytes_written]; [lia|].
    unfold len in *. rewrite firstn_length. lia.
  - injection H as <- <-. cbn [ch_bytes_written]. lia.
Qed.

Lemma update_short : forall h bytes, ch_bytes_written h + len bytes <= max -> ch_update_usize max checks h bytes = ch_update h bytes.
Proof.
  intros h bytes H. unfold ch_update_usize. destruct (ch_update h bytes) as [[st h1]|] eqn:U; cbn [bind]; [|reflexivity].
  apply update_length in U. rewrite usize_short by lia. cbn [bind]. destruct h1; reflexivity.
Qed.

(** the lazily processed chunk, if the canonicalizer was [bc] before *)
Definition lazy_ok (chunk : list byte) (bc : BodyCanon) (lz : LazyChunk) : Prop :=
  match lz_chunk lz with
  | None => lz_canon lz = bc
  | Some c => (length c + pending (lz_canon lz) <= pending bc + length chunk)%nat
  end.

Lemma lazy_short : forall chunk bc lz, N.of_nat (pending bc + length chunk) <= max -> lazy_ok chunk bc lz ->
  lazy_chunk_usize max checks chunk lz = lazy_chunk chunk lz
  /\ forall c lz', lazy_chunk chunk lz = Val (c, lz') -> (length c + pending (lz_canon lz') <= pending bc + length chunk)%nat /\ lz_chunk lz' = Some c /\ lazy_ok chunk bc lz'.
Proof.
  intros chunk bc lz H L. unfold lazy_chunk_usize, lazy_chunk, lazy_ok in *. destruct (lz_chunk lz) as [c0|] eqn:Z.
  - split; [reflexivity|]. intros c lz' X. injection X as <- <-. split; [exact L|]. split; [exact Z|]. rewrite Z. exact L.
  - rewrite L. split; [rewrite chunk_short by exact H; reflexivity|]. intros c lz' X.
    destruct (canonicalize_chunk bc chunk) as [[c1 bc1]|] eqn:T; cbn [bind] in X; [|discriminate]. injection X as <- <-. cbn [lz_canon lz_chunk].
    apply chunk_pending in T. auto.
Qed.

(** how far everything is from the [n] bytes seen *)
Definition kind_of (e : HasherEntry) : CanonAlg := let '(_, _, canon) := fst e in canon.
Definition entry_short (n : N) (bs br : BodyCanon) (e : HasherEntry) : Prop :=
  ch_bytes_written (fst (snd e)) + N.of_nat (pending (match kind_of e with Simple => bs | Relaxed => br end)) <= n.

Lemma entries_short : forall fot chunk bs br n, n + len chunk <= max -> N.of_nat (pending bs) <= n -> N.of_nat (pending br) <= n ->
  forall es ls lr, lazy_ok chunk bs ls -> lazy_ok chunk br lr -> Forall (entry_short n bs br) es ->
  hash_entries_usize max checks fot chunk ls lr es = hash_entries fot chunk ls lr es
  /\ forall es' ls' lr' d, hash_entries fot chunk ls lr es = Val (es', ls', lr', d) ->
       lazy_ok chunk bs ls' /\ lazy_ok chunk br lr'
       /\ (lz_chunk ls <> None -> ls' = ls) /\ (lz_chunk lr <> None -> lr' = lr)
       /\ Forall (entry_short (n + len chunk) (lz_canon ls') (lz_canon lr')) es'.
Proof.
  intros fot chunk bs br n Hm Ps Pr. unfold len in *.
  induction es as [|[key [h tr]] es IH]; intros ls lr Ls Lr F.
  { cbn [hash_entries_usize hash_entries]. split; [reflexivity|]. intros es' ls' lr' d X. injection X as <- <- <- <-. auto. }
  inversion_clear F as [|? ? Fe F']. cbn [hash_entries_usize hash_entries].
  assert (forall lz bc, lazy_ok chunk bc lz -> (pending (lz_canon lz) <= pending bc + length chunk)%nat) as Pl.
  { intros lz bc L. unfold lazy_ok in L. destruct (lz_chunk lz); [lia|]. rewrite L. lia. }
  destruct (entry_active fot h tr) eqn:A.
  - destruct key as [[limit alg] canon]. unfold entry_short, kind_of in Fe. cbn [fst snd] in Fe. destruct canon.
    + assert (N.of_nat (pending bs + length chunk) <= max) as B by lia.
      destruct (lazy_short chunk bs ls B Ls) as (X & Y). rewrite X. destruct (lazy_chunk chunk ls) as [[c ls1]|] eqn:Z; cbn [bind]; [|split; [reflexivity|discriminate]].
      destruct (Y _ _ eq_refl) as (Y1 & Y2 & Y3). rewrite update_short by (unfold len; lia).
      destruct (ch_update h c) as [[st h1]|] eqn:U; cbn [bind]; [|split; [reflexivity|discriminate]]. apply update_length in U. unfold len in U.
      destruct (IH ls1 lr Y3 Lr F') as (I1 & I2). rewrite I1.
      assert (lz_chunk ls <> None -> ls1 = ls) as Same.
      { intros K. unfold lazy_chunk in Z. destruct (lz_chunk ls); [injection Z as _ <-; reflexivity|congruence]. }
      destruct st; (split; [reflexivity|]); intros es' ls' lr' dd X'; destruct (hash_entries fot chunk ls1 lr es) as [[[[es1 ls2] lr2] d2]|] eqn:T; cbn [bind] in X'; try discriminate;
        injection X' as <- <- <- <-; destruct (I2 _ _ _ _ eq_refl) as (J1 & J2 & J3 & J4 & J5);
        assert (ls2 = ls1) as -> by (apply J3; rewrite Y2; discriminate);
        (split; [exact J1|]; split; [exact J2|]; split; [exact Same|]; split; [exact J4|]; constructor; [|exact J5]; unfold entry_short, kind_of; cbn [fst snd]; lia).
    + assert (N.of_nat (pending br + length chunk) <= max) as B by lia.
      destruct (lazy_short chunk br lr B Lr) as (X & Y). rewrite X. destruct (lazy_chunk chunk lr) as [[c lr1]|] eqn:Z; cbn [bind]; [|split; [reflexivity|discriminate]].
      destruct (Y _ _ eq_refl) as (Y1 & Y2 & Y3). rewrite update_short by (unfold len; lia).
      destruct (ch_update h c) as [[st h1]|] eqn:U; cbn [bind]; [|split; [reflexivity|discriminate]]. apply update_length in U. unfold len in U.
      destruct (IH ls lr1 Ls Y3 F') as (I1 & I2). rewrite I1.
      assert (lz_chunk lr <> None -> lr1 = lr) as Same.
      { intros K. unfold lazy_chunk in Z. destruct (lz_chunk lr); [injection Z as _ <-; reflexivity|congruence]. }
      destruct st; (split; [reflexivity|]); intros es' ls' lr' dd X'; destruct (hash_entries fot chunk ls lr1 es) as [[[[es1 ls2] lr2] d2]|] eqn:T; cbn [bind] in X'; try discriminate;
        injection X' as <- <- <- <-; destruct (I2 _ _ _ _ eq_refl) as (J1 & J2 & J3 & J4 & J5);
        assert (lr2 = lr1) as -> by (apply J4; rewrite Y2; discriminate);
        (split; [exact J1|]; split; [exact J2|]; split; [exact J3|]; split; [exact Same|]; constructor; [|exact J5]; unfold entry_short, kind_of; cbn [fst snd]; lia).
  - destruct (IH ls lr Ls Lr F') as (I1 & I2). rewrite I1. split; [reflexivity|]. intros es' ls' lr' dd X'.
    destruct (hash_entries fot chunk ls lr es) as [[[[es1 ls2] lr2] d2]|] eqn:T; cbn [bind] in X'; [|discriminate]. injection X' as <- <- <- <-.
    destruct (I2 _ _ _ _ eq_refl) as (J1 & J2 & J3 & J4 & J5). split; [exact J1|]. split; [exact J2|]. split; [exact J3|]. split; [exact J4|]. constructor; [|exact J5].
    pose proof (Pl _ _ J1). pose proof (Pl _ _ J2). unfold entry_short in *. destruct (kind_of (key, (h, tr))); cbn [fst snd] in *; lia.
Qed.

Definition hasher_short (n : N) (bh : BodyHasher) : Prop :=
  N.of_nat (pending (bh_simple bh)) <= n /\ N.of_nat (pending (bh_relaxed bh)) <= n
  /\ Forall (entry_short n (bh_simple bh) (bh_relaxed bh)) (bh_hashers bh).

Lemma chunks_short : forall chunks n bh, hasher_short n bh -> n + len (concat chunks) <= max ->
  hash_chunks_usize max checks bh chunks = (let! (_, bh') := hash_chunks bh chunks in Val bh')
  /\ forall sts bh', hash_chunks bh chunks = Val (sts, bh') -> hasher_short (n + len (concat chunks)) bh'.
Proof.
  induction chunks as [|c chunks IH]; intros n bh S H.
  { cbn [hash_chunks_usize hash_chunks bind concat]. split; [reflexivity|]. intros sts bh' X. injection X as _ <-. unfold len. cbn [length]. rewrite N.add_0_r. exact S. }
  destruct S as (S1 & S2 & S3). cbn [concat] in *. rewrite len_app in *. cbn [hash_chunks_usize hash_chunks].
  unfold hash_chunk_usize, hash_chunk. 
  destruct (entries_short (bh_fail_on_truncate bh) c (bh_simple bh) (bh_relaxed bh) n ltac:(lia) S1 S2 (bh_hashers bh) (mkLazy None (bh_simple bh)) (mkLazy None (bh_relaxed bh)) eq_refl eq_refl S3) as (A & B).
  rewrite A. destruct (hash_entries _ _ _ _ _) as [[[[es ls] lr] d]|] eqn:T; cbn [bind]; [|split; [reflexivity|discriminate]].
  destruct (B _ _ _ _ eq_refl) as (B1 & B2 & _ & _ & B5).
  assert (forall lz bc, N.of_nat (pending bc) <= n -> lazy_ok c bc lz -> N.of_nat (pending (lz_canon lz)) <= n + len c) as Pl.
  { intros lz bc P L. unfold lazy_ok, len in *. destruct (lz_chunk lz); [lia|]. rewrite L. lia. }
  destruct (IH (n + len c) (mkBH (bh_fail_on_truncate bh) es (lz_canon ls) (lz_canon lr))) as (C1 & C2).
  { split; [exact (Pl _ _ S1 B1)|]. split; [exact (Pl _ _ S2 B2)|]. exact B5. }
  { lia. }
  rewrite C1. split.
  - destruct (hash_chunks _ chunks) as [[sts bh']|]; reflexivity.
  - intros sts bh' X. destruct (hash_chunks _ chunks) as [[sts1 bh1]|] eqn:Y; cbn [bind] in X; [|discriminate]. injection X as _ <-. rewrite N.add_assoc. eapply C2. reflexivity.
Qed.

Definition fin_short (bc : BodyCanon) (f : FinishChunk) : Prop :=
  match fn_todo f with
  | Some bc' => bc' = bc
  | None => match fn_chunk f with Some c => (length c <= pending bc + 2)%nat | None => True end
  end.

Lemma fin_chunk_short : forall bc f c f', fin_short bc f -> finish_chunk f = Val (c, f') -> (length c <= pending bc + 2)%nat /\ fin_short bc f'.
Proof.
  intros bc f c f' F H. unfold finish_chunk, fin_short in *. destruct (fn_todo f) as [bc'|] eqn:T.
  - subst bc'. destruct (bc_finish bc) as [o|] eqn:B; cbn [bind] in H; [|discriminate]. injection H as <- <-. cbn [fn_todo fn_chunk]. apply finish_pending in B. auto.
  - destruct (fn_chunk f) as [o|] eqn:O; [|discriminate]. injection H as <- <-. rewrite T, O. auto.
Qed.

Lemma finish_short : forall hash fot bs br n, n + 2 <= max -> forall es fs fr, fin_short bs fs -> fin_short br fr -> Forall (entry_short n bs br) es ->
  finish_entries_usize max checks hash fot fs fr es = finish_entries hash fot fs fr es.
Proof.
  intros hash fot bs br n Hm. induction es as [|[key [h tr]] es IH]; intros fs fr Fs Fr F; [reflexivity|].
  inversion_clear F as [|? ? Fe F']. cbn [finish_entries_usize finish_entries]. destruct (entry_active fot h tr).
  - destruct key as [[limit alg] canon]. unfold entry_short, kind_of in Fe. cbn [fst snd] in Fe. destruct canon.
    + destruct (finish_chunk fs) as [[c fs1]|] eqn:X; cbn [bind]; [|reflexivity]. destruct (fin_chunk_short _ _ _ _ Fs X) as (L & Fs').
      rewrite update_short by (unfold len; lia). destruct (ch_update h c) as [[st h1]|]; cbn [bind]; [|reflexivity]. rewrite (IH _ _ Fs' Fr F'). reflexivity.
    + destruct (finish_chunk fr) as [[c fr1]|] eqn:X; cbn [bind]; [|reflexivity]. destruct (fin_chunk_short _ _ _ _ Fr X) as (L & Fr').
      rewrite update_short by (unfold len; lia). destruct (ch_update h c) as [[st h1]|]; cbn [bind]; [|reflexivity]. rewrite (IH _ _ Fs Fr' F'). reflexivity.
  - cbn [bind]. rewrite (IH _ _ Fs Fr F'). reflexivity.
Qed.

Lemma built_short : forall b order, hasher_short 0 (bhb_build b order).
Proof.
  intros b order. split; [unfold pending; cbn; lia|]. split; [unfold pending; cbn; lia|]. apply Forall_forall. intros e I.
  apply in_map_iff in I. destruct I as ([[limit alg] canon] & <- & _). unfold entry_short. destruct canon; cbn; lia.
Qed.

Lemma hashed_short : forall hash b order chunks, len (concat chunks) + 2 <= max ->
  (let! bh := hash_chunks_usize max checks (bhb_build b order) chunks in bh_finish_usize max checks hash bh)
  = (let! (_, bh) := hash_chunks (bhb_build b order) chunks in bh_finish hash bh).
Proof.
  intros hash b order chunks H. destruct (chunks_short chunks 0 _ (built_short b order) ltac:(lia)) as (A & B). rewrite A.
  destruct (hash_chunks (bhb_build b order) chunks) as [[sts bh]|]; cbn [bind]; [|reflexivity]. destruct (B _ _ eq_refl) as (S1 & S2 & S3).
  unfold bh_finish_usize, bh_finish. eapply finish_short; [|reflexivity|reflexivity|exact S3]. lia.
Qed.
End Short.

(** ** Empty lines, without checks *)

Section Wrapped.
Variable max : N.
Variable checks : bool.
Notation canon := (canonicalize_chunk_usize max checks).
Notation update := (ch_update_usize max checks).
Notation chunk_of := (hash_chunk_usize max checks).
Notation chunks_of := (hash_chunks_usize max checks).

Lemma usize_val : forall n m, usize max checks n = Val m -> m <= max /\ m <= n.
Proof.
  intros n m H. unfold usize in H. destruct (n <=? max) eqn:L; [injection H as <-; lia|]. destruct checks; [discriminate|]. injection H as <-.
  pose proof (N.mod_lt n (max + 1)). pose proof (N.mod_le n (max + 1)). lia.
Qed.

Lemma usize_fits : forall n, n <= max -> usize max checks n = Val n.
Proof. intros n H. unfold usize. destruct (n <=? max) eqn:L; [reflexivity|lia]. Qed.

Lemma canon_app : forall a b bc, canon bc (a ++ b) = let! (o, bc1) := canon bc a in let! (o', bc2) := canon bc1 b in Val (o ++ o', bc2).
Proof.
  induction a as [|x a IH]; intros b bc; cbn [canonicalize_chunk_usize app bind].
  - destruct (canon bc b) as [[o bc2]|]; reflexivity.
  - destruct (canon_step bc x) as [[o bc1]|]; cbn [bind]; [|reflexivity]. destruct (bc_usize max checks bc1) as [bc1'|]; cbn [bind]; [|reflexivity]. rewrite IH.
    destruct (canon bc1' a) as [[o1 bc2]|]; cbn [bind]; [|reflexivity]. destruct (canon bc2 b) as [[o2 bc3]|]; cbn [bind]; [|reflexivity]. rewrite app_assoc. reflexivity.
Qed.

(** at the beginning of a line *)
Definition at_line (bc : BodyCanon) : Prop := bc_state bc = SCrLf /\ bc_blank_line bc = true /\ N.of_nat (bc_empty_lines bc) <= max.

Lemma cr_step : forall bc o bc', canon_step bc 13 = Val (o, bc') -> bc_state bc' = SCr \/ bc_state bc' = SWspCr.
Proof.
  intros [kind st bl el] o bc' H. unfold canon_step, step_simple, step_relaxed in H. cbn [bc_kind bc_state] in H.
  destruct kind, st; cbn in H; try discriminate H; injection H as _ <-; cbn; auto.
Qed.

Lemma lf_step : forall bc o bc', bc_state bc = SCr \/ bc_state bc = SWspCr -> canon_step bc 10 = Val (o, bc') -> bc_state bc' = SCrLf /\ bc_blank_line bc' = true.
Proof.
  intros [kind st bl el] o bc' S H. cbn [bc_state] in S. unfold canon_step, step_simple, step_relaxed in H. cbn [bc_kind bc_state] in H.
  destruct kind, S; subst st; cbn in H; try discriminate H; unfold line_end in H; cbn in H; destruct bl; injection H as _ <-; cbn; auto.
Qed.

Lemma crlf_line : forall p bc o bc', canon bc (p ++ [13; 10]) = Val (o, bc') -> at_line bc'.
Proof.
  intros p bc o bc' H. rewrite canon_app in H. destruct (canon bc p) as [[o1 bc1]|]; cbn [bind] in H; [|discriminate].
  cbn [canonicalize_chunk_usize] in H. destruct (canon_step bc1 13) as [[o2 bc2]|] eqn:S1; cbn [bind] in H; [|discriminate].
  apply cr_step in S1. unfold bc_usize at 1 in H. destruct (usize max checks (N.of_nat (bc_empty_lines bc2))) as [m|]; cbn [bind] in H; [|discriminate].
  match type of H with context [canon_step ?b 10] => destruct (canon_step b 10) as [[o3 bc3]|] eqn:S2 end; cbn [bind] in H; [|discriminate].
  apply lf_step in S2; [|exact S1]. destruct S2 as (A & B). unfold bc_usize in H.
  destruct (usize max checks (N.of_nat (bc_empty_lines bc3))) as [k|] eqn:U; cbn [bind] in H; [|discriminate]. injection H as _ <-.
  split; [exact A|]. split; [exact B|]. cbn [bc_empty_lines]. rewrite N2Nat.id. apply usize_val in U. lia.
Qed.

(** hashers in a possible state *)
Definition hasher_ok (h : CountingHasher) : Prop :=
  ch_bytes_written h <= max /\ forall n, ch_length h = Some n -> ch_bytes_written h <= n.
Definition entry_fine (e : HasherEntry) : Prop := hasher_ok (fst (snd e)).

Lemma update_ok : forall h c st h', hasher_ok h -> update h c = Val (st, h') -> hasher_ok h'.
Proof.
  intros h c st h' (A & B) H. unfold ch_update_usize in H. destruct (ch_update h c) as [[st1 h1]|] eqn:U; cbn [bind] in H; [|discriminate].
  destruct (usize max checks (ch_bytes_written h1)) as [m|] eqn:Z; cbn [bind] in H; [|discriminate]. apply usize_val in Z.
  injection H as <- <-. unfold hasher_ok. cbn [ch_bytes_written ch_length]. split; [lia|]. intros n L.
  assert (ch_bytes_written h1 <= n) as X.
  { unfold ch_update in U. destruct (ch_length h) as [k|] eqn:K; [|injection U as <- <-; discriminate L]. specialize (B k eq_refl).
    destruct (ch_bytes_written h <=? k); [|discriminate]. destruct (len c <=? k - ch_bytes_written h) eqn:Q; injection U as <- <-; cbn [ch_length ch_bytes_written] in *; injection L as <-; [lia|].
    unfold len. rewrite firstn_length. lia. }
  lia.
Qed.

Lemma update_nil : forall h, hasher_ok h -> update h [] = Val (AllConsumed, h).
Proof.
  intros [alg data length written] (A & B). unfold ch_update_usize, ch_update. cbn [ch_length ch_bytes_written ch_alg ch_data] in *.
  assert (forall x, x = written -> usize max checks x = Val written) as Z. { intros x ->. apply usize_fits. exact A. }
  destruct length as [n|].
  - specialize (B n eq_refl). destruct (written <=? n) eqn:L; [|lia]. destruct (len [] <=? n - written) eqn:M; [|unfold len in M; cbn in M; lia].
    cbn [bind ch_bytes_written ch_alg ch_data ch_length]. rewrite Z by (unfold len; cbn; lia). cbn [bind]. rewrite app_nil_r. reflexivity.
  - cbn [bind ch_bytes_written ch_alg ch_data ch_length]. rewrite Z by (unfold len; cbn; lia). cbn [bind]. rewrite app_nil_r. reflexivity.
Qed.

Definition wants (fot : bool) (kind : CanonAlg) (es : list HasherEntry) : bool :=
  existsb (fun e => entry_active fot (fst (snd e)) (snd (snd e)) && canon_alg_eqb (kind_of e) kind) es.

(** what becomes of the lazily processed chunk *)
Definition lazy_to (chunk : list byte) (lz lz' : LazyChunk) : Prop :=
  lz' = lz \/ lz_chunk lz = None /\ exists c bc, canon (lz_canon lz) chunk = Val (c, bc) /\ lz' = mkLazy (Some c) bc.

Lemma lazy_to_trans : forall chunk a b c, lazy_to chunk a b -> lazy_to chunk b c -> lazy_to chunk a c.
Proof.
  intros chunk a b c [->|(N & x & bc & X & ->)] H; [exact H|]. destruct H as [->|(N' & _)]; [|discriminate N']. right. split; [exact N|]. exists x, bc. auto.
Qed.

Lemma lazy_chunk_to : forall chunk lz c lz', lazy_chunk_usize max checks chunk lz = Val (c, lz') -> lazy_to chunk lz lz' /\ lz_chunk lz' = Some c.
Proof.
  intros chunk lz c lz' H. unfold lazy_chunk_usize in H. destruct (lz_chunk lz) as [c0|] eqn:Z.
  - injection H as <- <-. split; [left; reflexivity|exact Z].
  - destruct (canon (lz_canon lz) chunk) as [[c1 bc]|] eqn:X; cbn [bind] in H; [|discriminate]. injection H as <- <-. split; [|reflexivity].
    right. split; [exact Z|]. exists c1, bc. auto.
Qed.

Lemma lazy_stays : forall chunk lz lz', lazy_to chunk lz lz' -> lz_chunk lz <> None -> lz_chunk lz' <> None.
Proof. intros chunk lz lz' [->|(N & _)] H; [exact H|contradiction]. Qed.

Lemma entries_fine : forall fot chunk es ls lr es' ls' lr' d, Forall entry_fine es ->
  hash_entries_usize max checks fot chunk ls lr es = Val (es', ls', lr', d) ->
  Forall entry_fine es' /\ lazy_to chunk ls ls' /\ lazy_to chunk lr lr'
  /\ (wants fot Simple es' = true -> wants fot Simple es = true /\ lz_chunk ls' <> None)
  /\ (wants fot Relaxed es' = true -> wants fot Relaxed es = true /\ lz_chunk lr' <> None).
Proof.
  intros fot chunk. induction es as [|[key [h tr]] es IH]; intros ls lr es' ls' lr' d F H; cbn [hash_entries_usize] in H.
  { injection H as <- <- <- <-. split; [constructor|]. split; [left; reflexivity|]. split; [left; reflexivity|]. split; discriminate. }
  inversion_clear F as [|? ? Fe F']. destruct key as [[limit alg] kind].
  assert (forall k, wants fot k (((limit, alg, kind), (h, tr)) :: es) = entry_active fot h tr && canon_alg_eqb kind k || wants fot k es) as Wc by reflexivity.
  destruct (entry_active fot h tr) eqn:A.
  - destruct kind.
    + destruct (lazy_chunk_usize max checks chunk ls) as [[c ls1]|] eqn:Z; cbn [bind] in H; [|discriminate]. destruct (lazy_chunk_to _ _ _ _ Z) as (T1 & T2).
      destruct (update h c) as [[st h1]|] eqn:U; cbn [bind] in H; [|discriminate]. pose proof (update_ok _ _ _ _ Fe U) as Fe'.
      assert (exists tr1 d1 es1 d2, hash_entries_usize max checks fot chunk ls1 lr es = Val (es1, ls', lr', d2) /\ es' = ((limit, alg, Simple), (h1, tr1)) :: es1 /\ d = d1) as (tr1 & d1 & es1 & d2 & X & -> & _).
      { destruct st; destruct (hash_entries_usize max checks fot chunk ls1 lr es) as [[[[es1 ls2] lr2] d2]|]; cbn [bind] in H; try discriminate; injection H as <- <- <- <-; eexists _, _, es1, d2; split; reflexivity || split; reflexivity. }
      destruct (IH _ _ _ _ _ _ F' X) as (J1 & J2 & J3 & J4 & J5). split; [constructor; [exact Fe'|exact J1]|]. split; [exact (lazy_to_trans _ _ _ _ T1 J2)|]. split; [exact J3|].
      assert (lz_chunk ls' <> None) as Nn by (apply (lazy_stays _ _ _ J2); rewrite T2; discriminate).
      rewrite !Wc. split.
      * intros _. split; [reflexivity|exact Nn].
      * intros W. change (wants fot Relaxed (((limit, alg, Simple), (h1, tr1)) :: es1)) with (entry_active fot h1 tr1 && false || wants fot Relaxed es1) in W.
        rewrite andb_false_r in W. cbn [orb] in W. destruct (J5 W) as (V1 & V2). split; [rewrite V1; apply orb_true_r|exact V2].
    + destruct (lazy_chunk_usize max checks chunk lr) as [[c lr1]|] eqn:Z; cbn [bind] in H; [|discriminate]. destruct (lazy_chunk_to _ _ _ _ Z) as (T1 & T2).
      destruct (update h c) as [[st h1]|] eqn:U; cbn [bind] in H; [|discriminate]. pose proof (update_ok _ _ _ _ Fe U) as Fe'.
      assert (exists tr1 d1 es1 d2, hash_entries_usize max checks fot chunk ls lr1 es = Val (es1, ls', lr', d2) /\ es' = ((limit, alg, Relaxed), (h1, tr1)) :: es1 /\ d = d1) as (tr1 & d1 & es1 & d2 & X & -> & _).
      { destruct st; destruct (hash_entries_usize max checks fot chunk ls lr1 es) as [[[[es1 ls2] lr2] d2]|]; cbn [bind] in H; try discriminate; injection H as <- <- <- <-; eexists _, _, es1, d2; split; reflexivity || split; reflexivity. }
      destruct (IH _ _ _ _ _ _ F' X) as (J1 & J2 & J3 & J4 & J5). split; [constructor; [exact Fe'|exact J1]|]. split; [exact J2|]. split; [exact (lazy_to_trans _ _ _ _ T1 J3)|].
      assert (lz_chunk lr' <> None) as Nn by (apply (lazy_stays _ _ _ J3); rewrite T2; discriminate).
      rewrite !Wc. split.
      * intros W. change (wants fot Simple (((limit, alg, Relaxed), (h1, tr1)) :: es1)) with (entry_active fot h1 tr1 && false || wants fot Simple es1) in W.
        rewrite andb_false_r in W. cbn [orb] in W. destruct (J4 W) as (V1 & V2). split; [rewrite V1; apply orb_true_r|exact V2].
      * intros _. split; [reflexivity|exact Nn].
  - destruct (hash_entries_usize max checks fot chunk ls lr es) as [[[[es1 ls2] lr2] d2]|] eqn:X; cbn [bind] in H; [|discriminate]. injection H as <- <- <- <-.
    destruct (IH _ _ _ _ _ _ F' X) as (J1 & J2 & J3 & J4 & J5). split; [constructor; [exact Fe|exact J1]|]. split; [exact J2|]. split; [exact J3|].
    assert (forall k, wants fot k (((limit, alg, kind), (h, tr)) :: es1) = entry_active fot h tr && canon_alg_eqb kind k || wants fot k es1) as Wc' by reflexivity.
    rewrite !Wc, !Wc', A. cbn [andb orb]. auto.
Qed.

(** the canonicalizers that are still used have seen all of [p] *)
Definition seen (p : list byte) (bh : BodyHasher) : Prop :=
  Forall entry_fine (bh_hashers bh)
  /\ (wants (bh_fail_on_truncate bh) Simple (bh_hashers bh) = true -> exists o, canon (bc_new Simple) p = Val (o, bh_simple bh))
  /\ (wants (bh_fail_on_truncate bh) Relaxed (bh_hashers bh) = true -> exists o, canon (bc_new Relaxed) p = Val (o, bh_relaxed bh)).

Lemma seen_chunk : forall p bh c st bh', seen p bh -> chunk_of bh c = Val (st, bh') -> seen (p ++ c) bh'.
Proof.
  intros p bh c st bh' (A & B & D) H. unfold hash_chunk_usize in H. destruct (hash_entries_usize _ _ _ _ _ _ _) as [[[[es ls] lr] d]|] eqn:X; cbn [bind] in H; [|discriminate].
  injection H as <- <-. destruct (entries_fine _ _ _ _ _ _ _ _ _ A X) as (J1 & J2 & J3 & J4 & J5). unfold seen. cbn [bh_hashers bh_fail_on_truncate bh_simple bh_relaxed].
  split; [exact J1|]. split; intros W.
  - destruct (J4 W) as (W' & N). destruct (B W') as (o & O). destruct J2 as [->|(_ & x & bc & Y & ->)]; [contradiction|]. cbn [lz_canon] in *.
    exists (o ++ x). rewrite canon_app, O. cbn [bind]. rewrite Y. reflexivity.
  - destruct (J5 W) as (W' & N). destruct (D W') as (o & O). destruct J3 as [->|(_ & x & bc & Y & ->)]; [contradiction|]. cbn [lz_canon] in *.
    exists (o ++ x). rewrite canon_app, O. cbn [bind]. rewrite Y. reflexivity.
Qed.

Lemma seen_chunks : forall cs p bh bh', seen p bh -> chunks_of bh cs = Val bh' -> seen (p ++ concat cs) bh'.
Proof.
  induction cs as [|c cs IH]; intros p bh bh' S H; cbn [hash_chunks_usize concat] in *; [injection H as <-; rewrite app_nil_r; exact S|].
  destruct (chunk_of bh c) as [[st bh1]|] eqn:X; cbn [bind] in H; [|discriminate]. rewrite app_assoc. exact (IH _ _ _ (seen_chunk _ _ _ _ _ S X) H).
Qed.

Lemma seen_new : forall b order, seen [] (bhb_build b order).
Proof.
  intros b order. split; [|split; intros _; exists []; reflexivity]. apply Forall_forall. intros e I. apply in_map_iff in I. destruct I as ([[limit alg] kind] & <- & _).
  split; cbn; intros; lia.
Qed.

(** chunks without output *)
Lemma quiet_entries : forall fot chunk bs br bs' br' es ls lr, Forall entry_fine es ->
  (wants fot Simple es = true -> canon bs chunk = Val ([], bs')) -> (wants fot Relaxed es = true -> canon br chunk = Val ([], br')) ->
  ls = mkLazy None bs \/ ls = mkLazy (Some []) bs' -> lr = mkLazy None br \/ lr = mkLazy (Some []) br' ->
  exists d, hash_entries_usize max checks fot chunk ls lr es
    = Val (es, if wants fot Simple es then mkLazy (Some []) bs' else ls, if wants fot Relaxed es then mkLazy (Some []) br' else lr, d).
Proof.
  intros fot chunk bs br bs' br'. induction es as [|[[[limit alg] kind] [h tr]] es IH]; intros ls lr F Hs Hr Ls Lr; [exists true; reflexivity|].
  inversion_clear F as [|? ? Fe F']. cbn [hash_entries_usize].
  assert (forall k, wants fot k (((limit, alg, kind), (h, tr)) :: es) = entry_active fot h tr && canon_alg_eqb kind k || wants fot k es) as Wc by reflexivity.
  rewrite !Wc in *. destruct (entry_active fot h tr) eqn:A; cbn [andb orb] in *.
  - destruct kind; cbn [canon_alg_eqb orb] in *.
    + specialize (Hs eq_refl). assert (lazy_chunk_usize max checks chunk ls = Val ([], mkLazy (Some []) bs')) as Z.
      { unfold lazy_chunk_usize. destruct Ls as [->| ->]; cbn [lz_chunk lz_canon]; [rewrite Hs; reflexivity|reflexivity]. }
      rewrite Z. cbn [bind]. rewrite update_nil by exact Fe. cbn [bind].
      destruct (IH (mkLazy (Some []) bs') lr F' (fun _ => Hs) Hr (or_intror eq_refl) Lr) as (d & X). rewrite X. cbn [bind]. eexists. destruct (wants fot Simple es); reflexivity.
    + specialize (Hr eq_refl). assert (lazy_chunk_usize max checks chunk lr = Val ([], mkLazy (Some []) br')) as Z.
      { unfold lazy_chunk_usize. destruct Lr as [->| ->]; cbn [lz_chunk lz_canon]; [rewrite Hr; reflexivity|reflexivity]. }
      rewrite Z. cbn [bind]. rewrite update_nil by exact Fe. cbn [bind].
      destruct (IH ls (mkLazy (Some []) br') F' Hs (fun _ => Hr) Ls (or_intror eq_refl)) as (d & X). rewrite X. cbn [bind]. eexists. destruct (wants fot Relaxed es); reflexivity.
  - destruct (IH ls lr F' Hs Hr Ls Lr) as (d & X). rewrite X. cbn [bind]. exists d. reflexivity.
Qed.

Lemma quiet_chunks : forall cs bh s' r', Forall entry_fine (bh_hashers bh) ->
  (wants (bh_fail_on_truncate bh) Simple (bh_hashers bh) = true -> canon (bh_simple bh) (concat cs) = Val ([], s')) ->
  (wants (bh_fail_on_truncate bh) Relaxed (bh_hashers bh) = true -> canon (bh_relaxed bh) (concat cs) = Val ([], r')) ->
  chunks_of bh cs = Val (mkBH (bh_fail_on_truncate bh) (bh_hashers bh)
    (if wants (bh_fail_on_truncate bh) Simple (bh_hashers bh) then s' else bh_simple bh)
    (if wants (bh_fail_on_truncate bh) Relaxed (bh_hashers bh) then r' else bh_relaxed bh)).
Proof.
  induction cs as [|c cs IH]; intros [fot es bs br] s' r' F Hs Hr; cbn [bh_hashers bh_fail_on_truncate bh_simple bh_relaxed] in *; cbn [hash_chunks_usize concat] in *.
  { cbn [canonicalize_chunk_usize] in Hs, Hr. destruct (wants fot Simple es) eqn:Ws, (wants fot Relaxed es) eqn:Wr;
      repeat match goal with H : true = true -> _ |- _ => specialize (H eq_refl); injection H as <- end; reflexivity. }
  assert (forall bc bc', canon bc (c ++ concat cs) = Val ([], bc') -> exists bc1, canon bc c = Val ([], bc1) /\ canon bc1 (concat cs) = Val ([], bc')) as Sp.
  { intros bc bc' H. rewrite canon_app in H. destruct (canon bc c) as [[o1 bc1]|]; cbn [bind] in H; [|discriminate].
    destruct (canon bc1 (concat cs)) as [[o2 bc2]|] eqn:Q; cbn [bind] in H; [|discriminate]. injection H as O <-. apply app_eq_nil in O. destruct O as [-> ->]. exists bc1. auto. }
  assert (exists s1, (wants fot Simple es = true -> canon bs c = Val ([], s1)) /\ (wants fot Simple es = true -> canon s1 (concat cs) = Val ([], s'))) as (s1 & S1 & S2).
  { destruct (wants fot Simple es); [|exists bs; split; discriminate]. destruct (Sp _ _ (Hs eq_refl)) as (s1 & X & Y). exists s1. auto. }
  assert (exists r1, (wants fot Relaxed es = true -> canon br c = Val ([], r1)) /\ (wants fot Relaxed es = true -> canon r1 (concat cs) = Val ([], r'))) as (r1 & R1 & R2).
  { destruct (wants fot Relaxed es); [|exists br; split; discriminate]. destruct (Sp _ _ (Hr eq_refl)) as (r1 & X & Y). exists r1. auto. }
  unfold hash_chunk_usize. cbn [bh_hashers bh_fail_on_truncate bh_simple bh_relaxed].
  destruct (quiet_entries fot c bs br s1 r1 es (mkLazy None bs) (mkLazy None br) F S1 R1 (or_introl eq_refl) (or_introl eq_refl)) as (d & X). rewrite X. cbn [bind].
  rewrite (IH _ s' r'); cbn [bh_hashers bh_fail_on_truncate bh_simple bh_relaxed].
  - destruct (wants fot Simple es), (wants fot Relaxed es); reflexivity.
  - exact F.
  - intros W. rewrite W. cbn [lz_canon]. exact (S2 W).
  - intros W. rewrite W. cbn [lz_canon]. exact (R2 W).
Qed.

Lemma chunks_app : forall a b bh, chunks_of bh (a ++ b) = let! bh1 := chunks_of bh a in chunks_of bh1 b.
Proof.
  induction a as [|c a IH]; intros b bh; [reflexivity|]. cbn [hash_chunks_usize app]. destruct (chunk_of bh c) as [[st bh1]|]; cbn [bind]; [|reflexivity]. apply IH.
Qed.

End Wrapped.

(** without checks, the count of empty lines comes around *)
Section Around.
Variable max : N.
Notation canon := (canonicalize_chunk_usize max false).
Notation chunks_of := (hash_chunks_usize max false).

Lemma usize_any : forall n, usize max false n = Val (n mod (max + 1)).
Proof. intros n. unfold usize. destruct (n <=? max) eqn:L; [|reflexivity]. rewrite N.mod_small by lia. reflexivity. Qed.

Lemma crlfs_canon : forall n bc, at_line max bc ->
  canon bc (crlfs n) = Val ([], mkBodyCanon (bc_kind bc) SCrLf true (N.to_nat ((N.of_nat (bc_empty_lines bc) + N.of_nat n) mod (max + 1)))).
Proof.
  induction n as [|n IH]; intros [kind st bl el] (S & B & L); cbn [bc_state bc_blank_line bc_empty_lines bc_kind] in *; subst st bl.
  - cbn [crlfs canonicalize_chunk_usize]. rewrite N.add_0_r, N.mod_small by lia. rewrite Nat2N.id. reflexivity.
  - cbn [crlfs]. unfold CRLF. cbn [app canonicalize_chunk_usize].
    assert (canon_step (mkBodyCanon kind SCrLf true el) 13 = Val ([], mkBodyCanon kind SCr true el)) as S1 by (destruct kind; reflexivity).
    assert (canon_step (mkBodyCanon kind SCr true el) 10 = Val ([], mkBodyCanon kind SCrLf true (S el))) as S2 by (destruct kind; reflexivity).
    unfold CR, LF. rewrite S1. cbn [bind]. unfold bc_usize. rewrite usize_any. cbn [bind bc_empty_lines bc_kind bc_state bc_blank_line].
    rewrite N.mod_small by lia. rewrite Nat2N.id, S2. cbn [bind bc_empty_lines bc_kind bc_state bc_blank_line]. rewrite usize_any. cbn [bind].
    rewrite IH.
    + cbn [bind bc_kind bc_empty_lines app]. rewrite N2Nat.id, N.add_mod_idemp_l by lia. replace (N.of_nat (S el) + N.of_nat n) with (N.of_nat el + N.of_nat (S n)) by lia. reflexivity.
    + split; [reflexivity|]. split; [reflexivity|]. cbn [bc_empty_lines]. rewrite N2Nat.id. pose proof (N.mod_lt (N.of_nat (S el)) (max + 1)). lia.
Qed.

Lemma crlfs_around : forall bc, at_line max bc -> canon bc (crlfs (N.to_nat (max + 1))) = Val ([], bc).
Proof.
  intros bc A. rewrite crlfs_canon by exact A. destruct bc as [kind st bl el]. destruct A as (S & B & L). cbn [bc_state bc_blank_line bc_empty_lines bc_kind] in *. subst st bl.
  rewrite N2Nat.id. replace (N.of_nat el + (max + 1)) with (N.of_nat el + 1 * (max + 1)) by lia. rewrite N.mod_add by lia. rewrite N.mod_small by lia. rewrite Nat2N.id. reflexivity.
Qed.

Theorem empty_lines_ignored : forall b order before lines after p, concat before = p ++ [13; 10] -> concat lines = crlfs (N.to_nat (max + 1)) ->
  chunks_of (bhb_build b order) (before ++ lines ++ after) = chunks_of (bhb_build b order) (before ++ after).
Proof.
  intros b order before lines after p P L. rewrite !chunks_app. destruct (chunks_of (bhb_build b order) before) as [bh|] eqn:X; cbn [bind]; [|reflexivity].
  apply (seen_chunks max false before [] _ _ (seen_new max false b order)) in X. cbn [app] in X. rewrite P in X. destruct X as (F & S & R).
  rewrite chunks_app, (quiet_chunks max false lines bh (bh_simple bh) (bh_relaxed bh) F).
  - destruct bh as [fot es bs br]. cbn [bh_hashers bh_fail_on_truncate bh_simple bh_relaxed bind]. destruct (wants fot Simple es), (wants fot Relaxed es); reflexivity.
  - intros W. rewrite L. destruct (S W) as (o & O). apply crlfs_around. exact (crlf_line _ _ _ _ _ _ O).
  - intros W. rewrite L. destruct (R W) as (o & O). apply crlfs_around. exact (crlf_line _ _ _ _ _ _ O).
Qed.
End Around.

(** with checks, it cannot *)
Section Checked.
Variable max : N.
Notation canon := (canonicalize_chunk_usize max true).
Notation chunks_of := (hash_chunks_usize max true).

Lemma crlfs_panic : forall n bc, at_line max bc -> max < N.of_nat (bc_empty_lines bc) + N.of_nat n -> canon bc (crlfs n) = Panic.
Proof.
  induction n as [|n IH]; intros [kind st bl el] (S & B & L) G; cbn [bc_state bc_blank_line bc_empty_lines bc_kind] in *; subst st bl; [lia|].
  cbn [crlfs]. unfold CRLF. cbn [app canonicalize_chunk_usize].
  assert (canon_step (mkBodyCanon kind SCrLf true el) 13 = Val ([], mkBodyCanon kind SCr true el)) as S1 by (destruct kind; reflexivity).
  assert (canon_step (mkBodyCanon kind SCr true el) 10 = Val ([], mkBodyCanon kind SCrLf true (S el))) as S2 by (destruct kind; reflexivity).
  unfold CR, LF. rewrite S1. cbn [bind]. unfold bc_usize. cbn [bc_empty_lines bc_kind bc_state bc_blank_line]. rewrite usize_fits by exact L. cbn [bind].
  rewrite Nat2N.id, S2. cbn [bind bc_empty_lines bc_kind bc_state bc_blank_line]. unfold usize at 1.
  destruct (N.of_nat (S el) <=? max) eqn:Q; cbn [bind]; [|reflexivity]. rewrite Nat2N.id, IH; [reflexivity| |].
  - split; [reflexivity|]. split; [reflexivity|]. cbn [bc_empty_lines]. lia.
  - cbn [bc_empty_lines]. lia.
Qed.

Definition unlimited (kind : CanonAlg) (e : HasherEntry) : Prop := kind_of e = kind /\ ch_length (fst (snd e)) = None.

Lemma unlimited_wants : forall fot kind es, Exists (unlimited kind) es -> wants fot kind es = true.
Proof.
  intros fot kind es X. apply Exists_exists in X. destruct X as (e & I & K & L). apply existsb_exists. exists e. split; [exact I|].
  apply andb_true_intro. split; [unfold entry_active, ch_is_done; rewrite L; reflexivity|]. rewrite K. destruct kind; reflexivity.
Qed.

Lemma update_keeps : forall checks h c st h', ch_update_usize max checks h c = Val (st, h') -> ch_length h' = ch_length h.
Proof.
  intros checks h c st h' H. unfold ch_update_usize in H. destruct (ch_update h c) as [[st1 h1]|] eqn:U; cbn [bind] in H; [|discriminate].
  destruct (usize max checks (ch_bytes_written h1)) as [m|]; cbn [bind] in H; [|discriminate]. injection H as <- <-. cbn [ch_length].
  unfold ch_update in U. destruct (ch_length h) as [k|] eqn:K; [|injection U as _ <-; reflexivity]. destruct (ch_bytes_written h <=? k); [|discriminate].
  destruct (len c <=? k - ch_bytes_written h); injection U as _ <-; reflexivity.
Qed.

Lemma entries_unlimited : forall kind checks fot chunk es ls lr es' ls' lr' d, hash_entries_usize max checks fot chunk ls lr es = Val (es', ls', lr', d) ->
  Exists (unlimited kind) es -> Exists (unlimited kind) es'.
Proof.
  intros kind checks fot chunk. induction es as [|[[[limit alg] k] [h tr]] es IH]; intros ls lr es' ls' lr' d H X; cbn [hash_entries_usize] in H; [inversion X|].
  destruct (entry_active fot h tr).
  - match type of H with bind ?x _ = _ => destruct x as [[[c ls1] lr1]|]; cbn [bind] in H; [|discriminate] end.
    destruct (ch_update_usize max checks h c) as [[st h1]|] eqn:U; cbn [bind] in H; [|discriminate]. apply update_keeps in U.
    destruct (match st with AllConsumed => (tr, ch_is_done h1) | Truncated => (true, true) end) as [tr1 d1] eqn:Q.
    assert (exists tr2 es1, es' = ((limit, alg, k), (h1, tr2)) :: es1 /\ (Exists (unlimited kind) es -> Exists (unlimited kind) es1)) as (tr2 & es1 & -> & J).
    { destruct st; destruct (hash_entries_usize max checks fot chunk ls1 lr1 es) as [[[[es1 ls2] lr2] d2]|] eqn:Y; cbn [bind] in H; try discriminate; injection H as <- <- <- <-;
        eexists _, es1; (split; [reflexivity|]); intros X'; exact (IH _ _ _ _ _ _ Y X'). }
    apply Exists_cons in X. apply Exists_cons. destruct X as [(X1 & X2)|X]; [left|right; auto]. split; [exact X1|]. cbn [snd fst] in *. congruence.
  - destruct (hash_entries_usize max checks fot chunk ls lr es) as [[[[es1 ls2] lr2] d2]|] eqn:Y; cbn [bind] in H; [|discriminate]. injection H as <- <- <- <-.
    apply Exists_cons in X. apply Exists_cons. destruct X as [X|X]; [left; exact X|right; exact (IH _ _ _ _ _ _ Y X)].
Qed.

Lemma chunks_unlimited : forall kind checks cs bh bh', hash_chunks_usize max checks bh cs = Val bh' -> Exists (unlimited kind) (bh_hashers bh) -> Exists (unlimited kind) (bh_hashers bh').
Proof.
  intros kind checks. induction cs as [|c cs IH]; intros bh bh' H X; cbn [hash_chunks_usize] in H; [injection H as <-; exact X|].
  destruct (hash_chunk_usize max checks bh c) as [[st bh1]|] eqn:Y; cbn [bind] in H; [|discriminate]. apply (IH _ _ H). unfold hash_chunk_usize in Y.
  destruct (hash_entries_usize _ _ _ _ _ _ _) as [[[[es ls] lr] d]|] eqn:Z; cbn [bind] in Y; [|discriminate]. injection Y as _ <-. cbn [bh_hashers].
  exact (entries_unlimited _ _ _ _ _ _ _ _ _ _ _ Z X).
Qed.

Theorem empty_lines_panic : forall b order before lines after p alg kind, In (None, alg, kind) order ->
  concat before = p ++ [13; 10] -> concat lines = crlfs (N.to_nat (max + 1)) -> chunks_of (bhb_build b order) (before ++ lines ++ after) = Panic.
Proof.
  intros b order before lines after p alg kind I P L. rewrite app_assoc, chunks_app. destruct (chunks_of (bhb_build b order) (before ++ lines)) as [bh|] eqn:X; cbn [bind]; [|reflexivity]. exfalso.
  assert (Exists (unlimited kind) (bh_hashers (bhb_build b order))) as U.
  { apply Exists_exists. eexists. split; [apply in_map_iff; exists (None, alg, kind); split; [reflexivity|exact I]|]. split; reflexivity. }
  pose proof (chunks_unlimited _ _ _ _ _ X U) as U'. apply (unlimited_wants (bh_fail_on_truncate bh)) in U'.
  apply (seen_chunks max true _ [] _ _ (seen_new max true b order)) in X. cbn [app] in X. rewrite concat_app, P, L in X. destruct X as (_ & S & R).
  assert (exists o bc, canon (bc_new kind) ((p ++ [13; 10]) ++ crlfs (N.to_nat (max + 1))) = Val (o, bc)) as (o & bc & O).
  { destruct kind; [destruct (S U') as (o & O)|destruct (R U') as (o & O)]; eauto. }
  rewrite canon_app in O. destruct (canon (bc_new kind) (p ++ [13; 10])) as [[o1 bc1]|] eqn:Q; cbn [bind] in O; [|discriminate].
  rewrite crlfs_panic in O; [discriminate|exact (crlf_line _ _ _ _ _ _ Q)|lia].
Qed.
End Checked.

(** ** Signing and verification *)

Lemma verifier_hashed : forall cs v, verifier_chunks v cs = let! (_, bh) := hash_chunks (vf_body_hasher v) cs in Val (mkVerifier (vf_tasks v) bh).
Proof.
  induction cs as [|c cs IH]; intros [ts bh]; cbn [verifier_chunks hash_chunks bind vf_body_hasher vf_tasks]; [reflexivity|]. unfold verifier_chunk. cbn [vf_body_hasher vf_tasks].
  destruct (hash_chunk bh c) as [[st bh1]|]; cbn [bind]; [|reflexivity]. rewrite IH. cbn [vf_body_hasher vf_tasks]. destruct (hash_chunks bh1 cs) as [[sts bh2]|]; reflexivity.
Qed.

Section Runs.
Variable E : Env.
Notation C := (env_crypto E).
Notation max := (env_usize_max E).

Lemma signer_hashed : forall cs s, signer_chunks E s cs = let! (_, bh) := hash_chunks (sg_body_hasher E s) cs in Val (mkSigner E (sg_tasks E s) (sg_headers E s) bh).
Proof.
  induction cs as [|c cs IH]; intros [ts hs bh]; cbn [signer_chunks hash_chunks bind sg_body_hasher sg_tasks sg_headers]; [reflexivity|]. unfold signer_chunk. cbn [sg_body_hasher sg_tasks sg_headers].
  destruct (hash_chunk bh c) as [[st bh1]|]; cbn [bind]; [|reflexivity]. rewrite IH. cbn [sg_body_hasher sg_tasks sg_headers]. destruct (hash_chunks bh1 cs) as [[sts bh2]|]; reflexivity.
Qed.

Lemma verifier_built : forall w headers config v log t, verify_header E w headers config = Val (Some (v, log, t)) -> exists b ord, vf_body_hasher v = bhb_build b ord.
Proof.
  intros w headers config v log t Hp. unfold verify_header in Hp. destruct (find_signatures E headers config (w_clock w)) as [[ts|]|]; cbn [bind] in Hp; try discriminate.
  destruct (add_lookups (env_idna E) [] ts) as [ps|]; cbn [bind] in Hp; [|discriminate]. destruct (spawn_all _ _ _ _) as [set el].
  destruct (process_results E headers config (map snd set) ts) as [ts'|]; cbn [bind] in Hp; [|discriminate].
  destruct (build_tasks E _ ts') as [[vts b]|]; cbn [bind] in Hp; [|discriminate]. injection Hp as <- _ _. cbn. eauto.
Qed.

Lemma signer_built : forall order headers rs s, prepare_signing E order headers rs = Val (Ok s) -> exists b ord, sg_body_hasher E s = bhb_build b ord.
Proof.
  intros order headers rs s H. unfold prepare_signing in H.
  repeat match type of H with
  | Val (Err _) = _ => discriminate H
  | (if ?c then _ else _) = _ => destruct c
  | bind ?x _ = _ => destruct x as [?|]; cbn [bind] in H; [|discriminate H]
  | match ?x with Ok _ => _ | Err _ => _ end = _ => destruct x
  | match ?x with (_, _) => _ end = _ => destruct x
  end; try discriminate H; injection H as <-; cbn [sg_body_hasher]; eauto.
Qed.

Theorem verify_short : forall checks w headers config chunks, len (concat chunks) + 2 <= max ->
  verify_message_usize E checks w headers config chunks = verify_message E w headers config chunks.
Proof.
  intros checks w headers config chunks L. unfold verify_message_usize, verify_message. destruct (verify_header E w headers config) as [[[[v log] t]|]|] eqn:V; cbn [bind]; try reflexivity.
  destruct (verifier_built _ _ _ _ _ _ V) as (b & ord & B). rewrite verifier_hashed, B.
  pose proof (hashed_short max checks (hash_fn C) b ord chunks L) as X. unfold verifier_finish.
  destruct (hash_chunks_usize max checks (bhb_build b ord) chunks) as [bh|]; cbn [bind] in *.
  - rewrite X. destruct (hash_chunks (bhb_build b ord) chunks) as [[sts bh']|]; cbn [bind vf_body_hasher vf_tasks] in *; [|reflexivity].
    destruct (bh_finish (hash_fn C) bh') as [rs|]; reflexivity.
  - destruct (hash_chunks (bhb_build b ord) chunks) as [[sts bh']|]; cbn [bind vf_body_hasher vf_tasks] in *; [|reflexivity]. rewrite <- X. reflexivity.
Qed.

Theorem sign_short : forall checks order headers rs chunks clock, len (concat chunks) + 2 <= max ->
  sign_message_usize E checks order headers rs chunks clock = sign_message E order headers rs chunks clock.
Proof.
  intros checks order headers rs chunks clock L. unfold sign_message_usize, sign_message. destruct (prepare_signing E order headers rs) as [[s|e]|] eqn:P; cbn [bind]; try reflexivity.
  destruct (signer_built _ _ _ _ P) as (b & ord & B). rewrite signer_hashed, B.
  pose proof (hashed_short max checks (hash_fn C) b ord chunks L) as X. unfold sign.
  destruct (hash_chunks_usize max checks (bhb_build b ord) chunks) as [bh|]; cbn [bind] in *.
  - rewrite X. destruct (hash_chunks (bhb_build b ord) chunks) as [[sts bh']|]; cbn [bind sg_body_hasher sg_tasks sg_headers] in *; [|reflexivity].
    destruct (bh_finish (hash_fn C) bh') as [r|]; reflexivity.
  - destruct (hash_chunks (bhb_build b ord) chunks) as [[sts bh']|]; cbn [bind sg_body_hasher sg_tasks sg_headers] in *; [|reflexivity]. rewrite <- X. reflexivity.
Qed.

Theorem verify_ignores : forall w headers config before lines after p, concat before = p ++ [13; 10] -> concat lines = crlfs (N.to_nat (max + 1)) ->
  verify_message_usize E false w headers config (before ++ lines ++ after) = verify_message_usize E false w headers config (before ++ after).
Proof.
  intros w headers config before lines after p P L. unfold verify_message_usize. destruct (verify_header E w headers config) as [[[[v log] t]|]|] eqn:V; cbn [bind]; try reflexivity.
  destruct (verifier_built _ _ _ _ _ _ V) as (b & ord & B). rewrite B, (empty_lines_ignored max b ord before lines after p P L). reflexivity.
Qed.

Theorem sign_ignores : forall order headers rs clock before lines after p, concat before = p ++ [13; 10] -> concat lines = crlfs (N.to_nat (max + 1)) ->
  sign_message_usize E false order headers rs (before ++ lines ++ after) clock = sign_message_usize E false order headers rs (before ++ after) clock.
Proof.
  intros order headers rs clock before lines after p P L. unfold sign_message_usize. destruct (prepare_signing E order headers rs) as [[s|e]|] eqn:Q; cbn [bind]; try reflexivity.
  destruct (signer_built _ _ _ _ Q) as (b & ord & B). rewrite B, (empty_lines_ignored max b ord before lines after p P L). reflexivity.
Qed.

Lemma finish_success : forall results ts rs r sig, finish_tasks max results ts = Val rs -> In r rs -> vr_status r = Success -> vr_signature r = Some sig ->
  exists key, body_hasher_key max sig = Val key /\ results_get results key <> None.
Proof.
  intros results. induction ts as [|t ts IH]; intros rs r sig H I S G; cbn [finish_tasks] in H; [injection H as <-; destruct I|].
  match type of H with bind ?x _ = _ => destruct x as [st|] eqn:X; cbn [bind] in H; [|discriminate] end.
  destruct (finish_tasks max results ts) as [rest|] eqn:R; cbn [bind] in H; [|discriminate]. injection H as <-. destruct I as [<-|I]; [|exact (IH _ _ _ eq_refl I S G)].
  cbn [vr_status vr_signature] in *. subst st. rewrite G in X. destruct (vr_status t); [|discriminate]. unfold verify_body_hash in X.
  destruct (body_hasher_key max sig) as [key|]; cbn [bind] in X; [|discriminate]. exists key. split; [reflexivity|]. intros N. rewrite N in X. discriminate.
Qed.

Theorem verify_panics : forall w headers config chunks rs r sig before lines after p,
  verify_message E w headers config chunks = Val (Some rs) -> In r rs -> vr_status r = Success -> vr_signature r = Some sig -> s_body_length sig = None ->
  concat before = p ++ [13; 10] -> concat lines = crlfs (N.to_nat (max + 1)) ->
  verify_message_usize E true w headers config (before ++ lines ++ after) = Panic.
Proof.
  intros w headers config chunks rs r sig before lines after p H I S G N P L. unfold verify_message in H. unfold verify_message_usize.
  destruct (verify_header E w headers config) as [[[[v log] t]|]|] eqn:V; cbn [bind] in *; try discriminate H.
  destruct (verifier_built _ _ _ _ _ _ V) as (b & ord & B). rewrite verifier_hashed, B in H.
  destruct (hash_body_results (hash_fn C) b ord chunks) as (sts & bh & H1 & _ & H2). rewrite H1 in H. cbn [bind] in H. unfold verifier_finish in H. cbn [vf_body_hasher vf_tasks] in H.
  rewrite H2 in H. cbn [bind] in H. match type of H with bind ?x _ = _ => destruct x as [rs'|] eqn:F; cbn [bind] in H; [|discriminate] end. injection H as ->.
  destruct (finish_success _ _ _ _ _ F I S G) as (key & K & R). unfold body_hasher_key in K. rewrite N in K. cbn [bind] in K. injection K as <-.
  rewrite results_get_map in R. destruct (existsb _ ord) eqn:X; [|contradiction]. apply existsb_key_In in X.
  rewrite B, (empty_lines_panic max b ord before lines after p _ _ X P L). reflexivity.
Qed.

Theorem sign_panics : forall order headers rs chunks clock results r before lines after p,
  Forall (request_typed E) rs -> (forall l, Permutation (order l) l) ->
  sign_message E order headers rs chunks clock = Val (Ok results) -> In r rs -> (forall n, r_body_length E r <> ExactLen n) ->
  concat before = p ++ [13; 10] -> concat lines = crlfs (N.to_nat (max + 1)) ->
  sign_message_usize E true order headers rs (before ++ lines ++ after) clock = Panic.
Proof.
  intros order headers rs chunks clock results r before lines after p T O H I N P L. unfold sign_message in H. unfold sign_message_usize.
  destruct (prepare_spec E order headers rs T) as (e & _ & X). rewrite X in *. cbn [bind] in *. destruct e as [e|]; [discriminate|]. cbv zeta in *.
  set (b := fold_left bhb_register (map (key_of E) rs) (bhb_new false)) in *. cbn [sg_body_hasher].
  rewrite (empty_lines_panic max b _ before lines after p (alg_hash (r_algorithm E r)) (c_body (r_canonicalization E r))); [reflexivity| |exact P|exact L].
  apply (Permutation_in _ (Permutation_sym (O _))). apply register_all_in. left. apply in_map_iff. exists r. split; [|exact I].
  unfold key_of, request_key, limit_of. destruct (r_body_length E r) as [| |n]; [reflexivity|reflexivity|destruct (N n eq_refl)].
Qed.
End Runs.
