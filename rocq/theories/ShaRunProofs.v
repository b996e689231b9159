(** Proofs that the concrete SHA-1, SHA-256 and SHA-512 are those specified, continued. *)

From Coq Require Import List NArith Arith.
From Verif Require Import Base SpecRsa SpecSha Concrete Lib ConcreteProofs ShaWordProofs ShaConstProofs ShaProofs.
Import ListNotations.
Open Scope N_scope.

(** ** Schedules *)

Fixpoint extend (next : list N -> N) (n : nat) (last : list N) : list N :=
  match n with
  | O => []
  | S n => let x := next last in x :: extend next n (x :: firstn 15 last)
  end.

Lemma extend_length : forall next n last, length (extend next n last) = n.
Proof. induction n; intros last; cbn [extend length]; [reflexivity|]. now rewrite IHn. Qed.

Lemma extend_nth : forall next n pre t, (16 <= length pre)%nat -> (length pre <= t < length pre + n)%nat ->
  let words := pre ++ extend next n (firstn 16 (rev pre)) in
  nth t words 0 = next (firstn 16 (rev (firstn t words))).
Proof.
  intros next. induction n; intros pre t L T; [lia|]. cbn zeta. cbn [extend].
  set (x := next (firstn 16 (rev pre))).
  destruct (Nat.eq_dec t (length pre)) as [->|NE].
  - rewrite app_nth2, Nat.sub_diag by lia. cbn [nth]. rewrite firstn_app, Nat.sub_diag, firstn_all. cbn [firstn]. rewrite app_nil_r. reflexivity.
  - specialize (IHn (pre ++ [x]) t). rewrite app_length in IHn. cbn [length] in IHn. cbn zeta in IHn.
    rewrite rev_app_distr in IHn. cbn [rev app firstn] in IHn. rewrite <- app_assoc in IHn. cbn [app] in IHn.
    rewrite firstn_firstn. change (Nat.min 15 16) with 15%nat. apply IHn; lia.
Qed.

Lemma nth_window : forall (words : list N) t i, (i < 16 <= t)%nat -> (t <= length words)%nat -> nth i (firstn 16 (rev (firstn t words))) 0 = nth (t - 1 - i) words 0.
Proof.
  intros words t i I T. assert (F : forall (l : list N) n j, (j < n)%nat -> nth j (firstn n l) 0 = nth j l 0).
  { intros l. induction l as [|a l IH]; intros n j J; [now rewrite firstn_nil|]. destruct n; [lia|]. destruct j; [reflexivity|]. cbn [firstn nth]. apply IH. lia. }
  rewrite F by lia. rewrite rev_nth by (rewrite firstn_length; lia). rewrite firstn_length, F by lia. f_equal. lia.
Qed.

Lemma extend_forall : forall next (Q : N -> Prop), (forall l, Forall Q l -> (length l = 16)%nat -> Q (next l)) -> forall n last, Forall Q last -> length last = 16%nat -> Forall Q (extend next n last).
Proof.
  intros next Q H. induction n; intros last F L; cbn [extend]; [constructor|]. constructor; [now apply H|]. apply IHn.
  - constructor; [now apply H|]. rewrite <- (firstn_skipn 15 last) in F. apply Forall_app in F. apply F.
  - cbn [length]. rewrite firstn_length. lia.
Qed.

Definition words_of (next : list N -> N) (n : nat) (b : list N) : list N := b ++ extend next n (rev b).

Lemma words_length : forall next n b, length b = 16%nat -> length (words_of next n b) = (16 + n)%nat.
Proof. intros next n b L. unfold words_of. rewrite app_length, extend_length. lia. Qed.
Lemma words_first : forall next n b t, length b = 16%nat -> (t < 16)%nat -> nth_error b t = Some (nth t (words_of next n b) 0).
Proof. intros next n b t L T. unfold words_of. rewrite app_nth1 by lia. apply nth_error_nth'. lia. Qed.
Lemma words_later : forall next n b t, length b = 16%nat -> (16 <= t < 16 + n)%nat ->
  nth t (words_of next n b) 0 = next (firstn 16 (rev (firstn t (words_of next n b)))).
Proof.
  intros next n b t L T. unfold words_of. replace (rev b) with (firstn 16 (rev b)) by (apply firstn_all2; rewrite rev_length; lia).
  apply extend_nth; lia.
Qed.

(** ** Final sums *)

Lemma final_sums : forall w v h, zip (fun x y => sum w [x; y]) (map (word_of w) v) (map (word_of w) h)
  = map (word_of w) (map (fun p => add (N.of_nat w) (fst p) (snd p)) (combine h v)).
Proof.
  intros w. unfold zip. induction v as [|x v IH]; intros [|y h]; cbn [map combine]; try reflexivity. rewrite IH. f_equal.
  cbn [fst snd]. change [word_of w x; word_of w y] with (map (word_of w) [x; y]). rewrite sum_word, add_word. f_equal. unfold sum_of. cbn [fold_right]. lia.
Qed.

Lemma sums_small : forall w v h, Forall (small_word w) (map (fun p => add (N.of_nat w) (fst p) (snd p)) (combine h v)).
Proof. intros. apply Forall_map. apply Forall_forall. intros p _. apply add_small. Qed.

Lemma firstn_snoc : forall A (l : list A) t x, nth_error l t = Some x -> firstn (S t) l = firstn t l ++ [x].
Proof. induction l as [|a l IH]; intros [|t] x H; cbn [nth_error] in H; try discriminate; [injection H as ->; reflexivity|]. cbn [firstn app]. f_equal. now apply IH. Qed.

(** ** SHA-256 and SHA-512 *)

Section Sha2.
Variable wb rounds : nat.
Hypothesis WB : wb = 4%nat \/ wb = 8%nat.
Variable P : Sha2.
Hypothesis PW : sh_w P = N.of_nat (8 * wb).
Hypothesis PK : length (sh_k P) = rounds.
Hypothesis PR : (16 <= rounds)%nat.
Variables small0 small1 big0 big1 : word -> word.
Notation w := (8 * wb)%nat.
Notation B := (word_of (8 * wb)).
Hypothesis S0 : forall x, small_word w x -> small0 (B x) = B (small P (sh_s0 P) x).
Hypothesis S1 : forall x, small_word w x -> small1 (B x) = B (small P (sh_s1 P) x).
Hypothesis B0 : forall x, small_word w x -> big0 (B x) = B (big P (sh_e0 P) x).
Hypothesis B1 : forall x, small_word w x -> big1 (B x) = B (big P (sh_e1 P) x).

Definition next2 (last : list N) : N :=
  let at_ i := nth i last 0 in
  add (sh_w P) (add (sh_w P) (small P (sh_s1 P) (at_ 1%nat)) (at_ 6%nat)) (add (sh_w P) (small P (sh_s0 P) (at_ 14%nat)) (at_ 15%nat)).

Lemma schedule_extend : forall n last, Concrete.schedule P n last = extend next2 n last.
Proof. induction n; intros last; cbn [Concrete.schedule extend]; [reflexivity|]. rewrite IHn. reflexivity. Qed.

Definition step2 (s : list N) (kx : N * N) : list N :=
  match s with
  | [a; b; c; d; e; f; g; h] =>
      let ch := N.lxor (N.land e f) (N.land (flip_bits (sh_w P) e) g) in
      let maj := N.lxor (N.lxor (N.land a b) (N.land a c)) (N.land b c) in
      let t1 := add (sh_w P) (add (sh_w P) h (big P (sh_e1 P) e)) (add (sh_w P) ch (add (sh_w P) (fst kx) (snd kx))) in
      let t2 := add (sh_w P) (big P (sh_e0 P) a) maj in
      [add (sh_w P) t1 t2; a; b; c; add (sh_w P) d t1; e; f; g]
  | _ => s
  end.

Lemma rounds_fold : forall kw s, length s = 8%nat -> Concrete.rounds P kw s = fold_left step2 kw s.
Proof.
  induction kw as [|[k x] kw IH]; intros s L; [reflexivity|].
  destruct s as [|a [|b [|c [|d [|e [|f [|g [|h [|]]]]]]]]]; try discriminate.
  cbn [Concrete.rounds fold_left]. rewrite IH by reflexivity. reflexivity.
Qed.

Definition good2 (h : list N) : Prop := length h = 8%nat /\ Forall (small_word w) h.

Lemma step2_good : forall s kx, good2 s -> good2 (step2 s kx).
Proof.
  intros s kx [L F]. destruct s as [|a [|b [|c [|d [|e [|f [|g [|h [|]]]]]]]]]; try discriminate.
  unfold step2. cbn zeta. split; [reflexivity|]. rewrite PW.
  repeat match goal with H : Forall _ (_ :: _) |- _ => inversion H; clear H; subst end.
  repeat (constructor; [first [apply add_small|assumption]|]). constructor.
Qed.

Lemma ch_word : forall e f g, ch (B e) (B f) (B g) = B (N.lxor (N.land e f) (N.land (flip_bits (sh_w P) e) g)).
Proof. intros. unfold ch. rewrite wnot_word, !wand_word, wxor_word, PW. reflexivity. Qed.
Lemma maj_word : forall a b c, maj (B a) (B b) (B c) = B (N.lxor (N.lxor (N.land a b) (N.land a c)) (N.land b c)).
Proof. intros. unfold maj. rewrite !wand_word, !wxor_word. reflexivity. Qed.

Lemma step2_word : forall ks t k x s, ks t = B k -> good2 s -> sha2_step w big0 big1 ks t (B x) (map B s) = map B (step2 s (k, x)).
Proof.
  intros ks t k x s K [L F]. destruct s as [|a [|b [|c [|d [|e [|f [|g [|h [|]]]]]]]]]; try discriminate.
  repeat match goal with H : Forall _ (_ :: _) |- _ => inversion H; clear H; subst end.
  cbn [map]. unfold sha2_step, step2. cbn zeta. cbn [fst snd map]. rewrite K, B0, B1, ch_word, maj_word by assumption. rewrite PW.
  set (C := N.lxor (N.land e f) _). set (M := N.lxor _ (N.land b c)).
  change [B h; B (big P (sh_e1 P) e); B C; B k; B x] with (map B [h; big P (sh_e1 P) e; C; k; x]).
  change [B (big P (sh_e0 P) a); B M] with (map B [big P (sh_e0 P) a; M]).
  rewrite !sum_word.
  set (t1 := sum_of [h; _; _; _; _]). set (t2 := sum_of [_; _]).
  change [B t1; B t2] with (map B [t1; t2]). change [B d; B t1] with (map B [d; t1]). rewrite !sum_word.
  rewrite add5, (add2 _ (big P (sh_e0 P) a)). fold t1 t2.
  assert (E1 : B (sum_of [t1; t2]) = B (add (N.of_nat w) (t1 mod 2 ^ N.of_nat w) (t2 mod 2 ^ N.of_nat w))).
  { unfold add, sum_of. cbn [fold_right]. rewrite ones_mod, <- N.add_mod, N.add_0_r by apply pow2_pos. symmetry. apply word_of_mod. }
  assert (E2 : B (sum_of [d; t1]) = B (add (N.of_nat w) d (t1 mod 2 ^ N.of_nat w))).
  { unfold add, sum_of. cbn [fold_right]. rewrite ones_mod, N.add_mod_idemp_r, N.add_0_r by apply pow2_pos. symmetry. apply word_of_mod. }
  rewrite E1, E2. reflexivity.
Qed.

Lemma next2_small : forall l, small_word w (next2 l).
Proof. intros l. unfold next2. cbn zeta. rewrite PW. apply add_small. Qed.

Lemma words2_small : forall n b, good_block wb b -> Forall (small_word w) (words_of next2 n b).
Proof.
  intros n b [L F]. unfold words_of. apply Forall_app. split; [exact F|]. apply extend_forall; [intros; apply next2_small|now apply Forall_rev|now rewrite rev_length].
Qed.

Lemma compress2_words : forall h b, length h = 8%nat -> compress P h b
  = map (fun p => add (N.of_nat w) (fst p) (snd p)) (combine h (fold_left step2 (combine (sh_k P) (words_of next2 (rounds - 16) b)) h)).
Proof. intros h b L. unfold compress. cbn zeta. rewrite schedule_extend, PK, rounds_fold, PW by exact L. reflexivity. Qed.

Lemma fold2_good : forall kw s, good2 s -> good2 (fold_left step2 kw s).
Proof. induction kw; intros s G; [exact G|]. cbn [fold_left]. apply IHkw. now apply step2_good. Qed.

Lemma compress2_good : forall h b, good2 h -> good_block wb b -> good2 (compress P h b).
Proof.
  intros h b G _. pose proof (fold2_good (combine (sh_k P) (words_of next2 (rounds - 16) b)) h G) as [L _]. destruct G as [G _].
  rewrite compress2_words by exact G. split; [|apply sums_small]. rewrite map_length, combine_length. lia.
Qed.

Lemma sha2_next_local : forall ws ws' t, (16 <= t)%nat -> (forall u, (u < t)%nat -> ws u = ws' u) -> sha2_next w small0 small1 ws t = sha2_next w small0 small1 ws' t.
Proof. intros ws ws' t T H. unfold sha2_next. rewrite !H by lia. reflexivity. Qed.

Lemma compress2_iff : forall ks h b h', (forall t, (t < rounds)%nat -> ks t = B (nth t (sh_k P) 0)) -> good2 h -> good_block wb b ->
  (block_hash w rounds (sha2_next w small0 small1) (sha2_step w big0 big1 ks) (map B b) (map B h) h' <-> h' = map B (compress P h b)).
Proof.
  intros ks h b h' K G GB. rewrite compress2_words by apply G. rewrite <- final_sums.
  pose proof (words2_small (rounds - 16) b GB) as WS. destruct GB as [L _].
  pose proof (words_length next2 (rounds - 16) b L) as WL.
  set (ws := words_of next2 (rounds - 16) b) in *. set (kw := combine (sh_k P) ws).
  assert (KL : length kw = rounds) by (unfold kw; rewrite combine_length; lia).
  rewrite (block_iff wb rounds WB (sha2_next w small0 small1) (sha2_step w big0 big1 ks) sha2_next_local b h (fun t => nth t ws 0) (fun t => fold_left step2 (firstn t kw) h) h').
  - rewrite firstn_all2 by lia. reflexivity.
  - intros t T. now apply words_first.
  - intros t T. rewrite Forall_nth in WS.
    transitivity (B (next2 (firstn 16 (rev (firstn t ws))))); [f_equal; apply words_later; [exact L|lia]|].
    unfold next2. cbn zeta. rewrite !nth_window by lia.
    replace (t - 1 - 1)%nat with (t - 2)%nat by lia. replace (t - 1 - 6)%nat with (t - 7)%nat by lia.
    replace (t - 1 - 14)%nat with (t - 15)%nat by lia. replace (t - 1 - 15)%nat with (t - 16)%nat by lia.
    unfold sha2_next. rewrite S0, S1 by (apply WS; lia). rewrite PW.
    set (x1 := small P (sh_s1 P) _). set (x0 := small P (sh_s0 P) _).
    change [B x1; B (nth (t - 7) ws 0); B x0; B (nth (t - 16) ws 0)] with (map B [x1; nth (t - 7) ws 0; x0; nth (t - 16) ws 0]).
    rewrite sum_word, add4. apply word_of_mod.
  - reflexivity.
  - intros t T. assert (E : nth_error kw t = Some (nth t (sh_k P) 0, nth t ws 0)).
    { apply combine_nth_error; apply nth_error_nth'; lia. }
    rewrite (firstn_snoc _ _ _ _ E), fold_left_app. cbn [fold_left]. symmetry. apply step2_word; [now apply K|now apply fold2_good].
  - exact PR.
Qed.

Variable initial : list N.
Hypothesis IL : length initial = 8%nat.
Hypothesis CK : roots_check 3 (N.of_nat w) rounds (sh_k P) = true.
Hypothesis CI : roots_check 2 (N.of_nat w) 8 initial = true.
Hypothesis R80 : (rounds <= 80)%nat.

Lemma initial_good : good2 initial.
Proof.
  split; [exact IL|]. unfold roots_check in CI. apply andb_prop in CI. destruct CI as [_ C]. rewrite forallb_forall in C.
  apply Forall_forall. intros x X. destruct (In_nth_error _ _ X) as [t T].
  assert (T8 : (t < 8)%nat) by (rewrite <- IL; apply nth_error_Some; congruence).
  destruct (nth_error primes80 t) as [p|] eqn:E.
  2: { apply nth_error_None in E. change (length primes80) with 80%nat in E. lia. }
  specialize (C _ (nth_error_In _ _ (combine_nth_error _ _ _ _ _ _ _ E T))). unfold root_check in C. apply andb_prop in C. destruct C as [C _].
  apply N.ltb_lt in C. exact C.
Qed.

Lemma some_prime : forall t, (t < 80)%nat -> exists p, nth_prime t p.
Proof.
  intros t T. destruct (nth_error primes80 t) as [p|] eqn:E; [exists p; now apply listed_nth|].
  apply nth_error_None in E. change (length primes80) with 80%nat in E. lia.
Qed.

Lemma sha2_iff : forall msg d, Forall is_byte msg ->
  (sha2_digest w rounds small0 small1 big0 big1 (bits_of msg) d
   <-> d = bits_of (flat_map (to_be wb) (fold_left (compress P) (blocks wb (16 * wb) msg) initial))).
Proof.
  intros msg d F. unfold sha2_digest. split.
  - intros (ks & ini & K & L & I & D).
    assert (EK : forall t, (t < rounds)%nat -> ks t = B (nth t (sh_k P) 0)).
    { intros t T. destruct (some_prime t) as [p Hp]; [lia|]. apply (roots_word 3 w rounds (sh_k P) t p); try assumption; [lia|]. now apply K. }
    assert (EI : ini = map B initial).
    { apply nth_ext with [] (B 0); [now rewrite map_length, L, IL|]. intros t T. rewrite L in T. rewrite map_nth.
      destruct (some_prime t) as [p Hp]; [lia|]. apply (roots_word 2 w 8 initial t p); try assumption; [lia|lia|]. now apply I. }
    subst ini. revert D. apply (digest_iff wb rounds WB _ _ (compress P) good2); [exact compress2_good| |exact initial_good|exact F].
    intros. now apply compress2_iff.
  - intros ->. exists (fun t => B (nth t (sh_k P) 0)), (map B initial). split; [|split; [now rewrite map_length|split]].
    + intros t p T Hp. apply (roots_word 3 w rounds (sh_k P) t p); try assumption; [lia|reflexivity].
    + intros t p T Hp. rewrite nth_indep with (d' := B 0) by (rewrite map_length; lia). rewrite map_nth. apply (roots_word 2 w 8 initial t p); try assumption; [lia|lia|reflexivity].
    + apply (digest_iff wb rounds WB _ _ (compress P) good2); [exact compress2_good| |exact initial_good|exact F|reflexivity].
      intros. now apply compress2_iff.
Qed.
End Sha2.

Ltac word_ops := intros x X; unfold small, big; cbn zeta;
  rewrite ?wrotr_word, ?wshr_word by (exact X || lia); rewrite !wxor_word; reflexivity.

Lemma sha256_bits : forall msg d, Forall is_byte msg -> (sha256_digest (bits_of msg) d <-> d = bits_of (sha256 msg)).
Proof.
  intros msg d F. apply (sha2_iff 4 64 (or_introl eq_refl) params256 eq_refl eq_refl); [lia| | | | |reflexivity|exact (proj1 roots_ok)|exact (proj1 (proj2 roots_ok))|lia|exact F].
  - word_ops.
  - word_ops.
  - word_ops.
  - word_ops.
Qed.

Lemma sha512_bits : forall msg d, Forall is_byte msg -> (sha512_digest (bits_of msg) d <-> d = bits_of (sha512 msg)).
Proof.
  intros msg d F. apply (sha2_iff 8 80 (or_intror eq_refl) params512 eq_refl eq_refl); [lia| | | | |reflexivity|exact (proj1 (proj2 (proj2 roots_ok)))|exact (proj2 (proj2 (proj2 roots_ok)))|lia|exact F].
  - word_ops.
  - word_ops.
  - word_ops.
  - word_ops.
Qed.

(** ** SHA-1 *)

Notation B32 := (word_of 32).

Definition next1 (last : list N) : N :=
  let at_ i := nth i last 0 in rotl 32 1 (N.lxor (N.lxor (at_ 2%nat) (at_ 7%nat)) (N.lxor (at_ 13%nat) (at_ 15%nat))).

Lemma schedule1_extend : forall n last, schedule1 n last = extend next1 n last.
Proof. induction n; intros last; cbn [schedule1 extend]; [reflexivity|]. rewrite IHn. reflexivity. Qed.

Definition fk (t : nat) (b c d : N) : N * N :=
  match Nat.div t 20 with
  | 0%nat => (N.lxor (N.land b c) (N.land (flip_bits 32 b) d), 1518500249)
  | 1%nat => (N.lxor (N.lxor b c) d, 1859775393)
  | 2%nat => (N.lxor (N.lxor (N.land b c) (N.land b d)) (N.land c d), 2400959708)
  | _ => (N.lxor (N.lxor b c) d, 3395469782)
  end.

Definition step1 (s : list N) (tx : nat * N) : list N :=
  match s with
  | [a; b; c; d; e] =>
      [add 32 (add 32 (rotl 32 5 a) (fst (fk (fst tx) b c d))) (add 32 e (add 32 (snd (fk (fst tx) b c d)) (snd tx))); a; rotl 32 30 b; c; d]
  | _ => s
  end.

Lemma rounds1_fold : forall ws t s, length s = 5%nat -> rounds1 t ws s = fold_left step1 (combine (seq t (length ws)) ws) s.
Proof.
  induction ws as [|x ws IH]; intros t s L; [reflexivity|].
  destruct s as [|a [|b [|c [|d [|e [|]]]]]]; try discriminate.
  cbn [rounds1 length seq combine fold_left]. unfold step1 at 2. cbn [fst snd]. unfold fk.
  destruct (Nat.div t 20) as [|[|[|k]]]; cbn [fst snd]; rewrite IH by reflexivity; reflexivity.
Qed.

Definition good1 (h : list N) : Prop := length h = 5%nat /\ Forall (small_word 32) h.

Lemma rotl_small : forall n a, small_word 32 a -> small_word 32 (rotl 32 n a).
Proof. intros n a A. unfold rotl. exact (rotr_small 32 (32 - n) a A). Qed.

Lemma step1_good : forall s tx, good1 s -> good1 (step1 s tx).
Proof.
  intros s tx [L F]. destruct s as [|a [|b [|c [|d [|e [|]]]]]]; try discriminate.
  unfold step1. split; [reflexivity|].
  repeat match goal with H : Forall _ (_ :: _) |- _ => inversion H; clear H; subst end.
  constructor; [apply (add_small 32)|]. constructor; [assumption|]. constructor; [now apply rotl_small|]. constructor; [assumption|]. constructor; [assumption|constructor].
Qed.

Lemma rotl32 : forall n a, (n <= 32)%nat -> small_word 32 a -> wrotl n (B32 a) = B32 (rotl 32 (N.of_nat n) a).
Proof. intros n a H A. exact (wrotl_word 32 n a H A). Qed.

Lemma function1_word : forall t b c d, (t < 80)%nat -> sha1_function t (B32 b) (B32 c) (B32 d) = B32 (fst (fk t b c d)).
Proof.
  intros t b c d T. unfold sha1_function, fk.
  destruct (Nat.ltb_spec t 20) as [L|L]; [replace (t / 20)%nat with 0%nat by lia; cbn [fst]; unfold ch; rewrite wnot_word, !wand_word, wxor_word; reflexivity|].
  destruct (Nat.ltb_spec t 40) as [M|M]; [replace (t / 20)%nat with 1%nat by lia; cbn [fst]; unfold parity; rewrite !wxor_word; reflexivity|].
  destruct (Nat.ltb_spec t 60) as [O|O]; [replace (t / 20)%nat with 2%nat by lia; cbn [fst]; unfold maj; rewrite !wand_word, !wxor_word; reflexivity|].
  replace (t / 20)%nat with 3%nat by lia. cbn [fst]. unfold parity. rewrite !wxor_word. reflexivity.
Qed.
Lemma constant1 : forall t b c d, (t < 80)%nat -> sha1_constant t = snd (fk t b c d).
Proof.
  intros t b c d T. unfold sha1_constant, fk.
  destruct (Nat.ltb_spec t 20) as [L|L]; [now replace (t / 20)%nat with 0%nat by lia|].
  destruct (Nat.ltb_spec t 40) as [M|M]; [now replace (t / 20)%nat with 1%nat by lia|].
  destruct (Nat.ltb_spec t 60) as [O|O]; [now replace (t / 20)%nat with 2%nat by lia|].
  now replace (t / 20)%nat with 3%nat by lia.
Qed.

Lemma step1_word : forall t x s, (t < 80)%nat -> good1 s -> sha1_step t (B32 x) (map B32 s) = map B32 (step1 s (t, x)).
Proof.
  intros t x s T [L F]. destruct s as [|a [|b [|c [|d [|e [|]]]]]]; try discriminate.
  repeat match goal with H : Forall _ (_ :: _) |- _ => inversion H; clear H; subst end.
  cbn [map]. unfold sha1_step, step1. cbn [fst snd map]. rewrite function1_word, (constant1 t b c d) by exact T. rewrite !rotl32 by (lia || assumption).
  change (N.of_nat 5) with 5. change (N.of_nat 30) with 30.
  set (f := fst (fk t b c d)). set (k := snd (fk t b c d)). set (r := rotl 32 5 a).
  change [B32 r; B32 f; B32 e; B32 k; B32 x] with (map B32 [r; f; e; k; x]). rewrite sum_word, add5.
  f_equal. symmetry. exact (word_of_mod 32 _).
Qed.

Lemma next1_small : forall l, Forall (small_word 32) l -> length l = 16%nat -> small_word 32 (next1 l).
Proof.
  intros l F L. rewrite Forall_nth in F. unfold next1. cbn zeta. apply rotl_small. repeat apply lxor_small; apply F; lia.
Qed.
Lemma words1_small : forall n b, good_block 4 b -> Forall (small_word 32) (words_of next1 n b).
Proof.
  intros n b [L F]. unfold words_of. apply Forall_app. split; [exact F|]. apply extend_forall; [apply next1_small|now apply Forall_rev|now rewrite rev_length].
Qed.

Lemma compress1_words : forall h b, length h = 5%nat -> length b = 16%nat -> compress1 h b
  = map (fun p => add 32 (fst p) (snd p)) (combine h (fold_left step1 (combine (seq 0 80) (words_of next1 64 b)) h)).
Proof.
  intros h b L LB. unfold compress1. rewrite schedule1_extend, rounds1_fold by exact L. fold (words_of next1 64 b). rewrite words_length by exact LB. reflexivity.
Qed.

Lemma fold1_good : forall kw s, good1 s -> good1 (fold_left step1 kw s).
Proof. induction kw; intros s G; [exact G|]. cbn [fold_left]. apply IHkw. now apply step1_good. Qed.

Lemma compress1_good : forall h b, good1 h -> good_block 4 b -> good1 (compress1 h b).
Proof.
  intros h b G [LB _]. pose proof (fold1_good (combine (seq 0 80) (words_of next1 64 b)) h G) as [L _]. destruct G as [G _].
  rewrite compress1_words by assumption. split; [|exact (sums_small 32 _ _)]. rewrite map_length, combine_length. lia.
Qed.

Lemma sha1_next_local : forall ws ws' t, (16 <= t)%nat -> (forall u, (u < t)%nat -> ws u = ws' u) -> sha1_next ws t = sha1_next ws' t.
Proof. intros ws ws' t T H. unfold sha1_next. rewrite !H by lia. reflexivity. Qed.

Lemma compress1_iff : forall h b h', good1 h -> good_block 4 b ->
  (block_hash 32 80 sha1_next sha1_step (map B32 b) (map B32 h) h' <-> h' = map B32 (compress1 h b)).
Proof.
  intros h b h' G GB. pose proof (words1_small 64 b GB) as WS. destruct GB as [L _]. rewrite compress1_words by (exact L || apply G).
  pose proof (words_length next1 64 b L) as WL.
  set (ws := words_of next1 64 b) in *. set (kw := combine (seq 0 80) ws).
  assert (KL : length kw = 80%nat) by (unfold kw; rewrite combine_length, seq_length; lia).
  pose proof (block_iff 4 80 (or_introl eq_refl) sha1_next sha1_step sha1_next_local b h (fun t => nth t ws 0) (fun t => fold_left step1 (firstn t kw) h) h') as BI.
  change (8 * 4)%nat with 32%nat in BI. rewrite BI; clear BI.
  - rewrite (firstn_all2 kw) by lia. rewrite (final_sums 32). reflexivity.
  - intros t T. now apply words_first.
  - intros t T. rewrite Forall_nth in WS.
    transitivity (B32 (next1 (firstn 16 (rev (firstn t ws))))); [f_equal; apply words_later; [exact L|lia]|].
    unfold next1. cbn zeta. rewrite !nth_window by lia.
    replace (t - 1 - 2)%nat with (t - 3)%nat by lia. replace (t - 1 - 7)%nat with (t - 8)%nat by lia.
    replace (t - 1 - 13)%nat with (t - 14)%nat by lia. replace (t - 1 - 15)%nat with (t - 16)%nat by lia.
    unfold sha1_next. rewrite !wxor_word, rotl32; [|lia|repeat apply lxor_small; apply WS; lia]. rewrite !N.lxor_assoc. reflexivity.
  - reflexivity.
  - intros t T. assert (E : nth_error kw t = Some (t, nth t ws 0)).
    { apply combine_nth_error; [|apply nth_error_nth'; lia]. rewrite (nth_error_nth' _ O) by (rewrite seq_length; lia). rewrite seq_nth by lia. reflexivity. }
    rewrite (firstn_snoc _ _ _ _ E), fold_left_app. cbn [fold_left]. symmetry. apply step1_word; [exact T|now apply fold1_good].
  - lia.
Qed.

Lemma sha1_bits : forall msg d, Forall is_byte msg -> (sha1_digest (bits_of msg) d <-> d = bits_of (sha1 msg)).
Proof.
  intros msg d F. apply (digest_iff 4 80 (or_introl eq_refl) sha1_next sha1_step compress1 good1); [exact compress1_good|exact compress1_iff| |exact F].
  split; [reflexivity|]. repeat (constructor; [unfold small_word; reflexivity|]). constructor.
Qed.

(** ** On bytes *)

Lemma sha_bytes : forall (rel : word -> word -> Prop) f, (forall msg, Forall is_byte (f msg)) -> (forall msg d, Forall is_byte msg -> (rel (bits_of msg) d <-> d = bits_of (f msg))) ->
  forall msg d, Forall is_byte msg -> (Forall is_byte d /\ rel (bits_of msg) (bits_of d) <-> d = f msg).
Proof.
  intros rel f B H msg d F. rewrite H by exact F. split; [intros [D E]; apply bits_of_inj; auto|intros ->; auto].
Qed.

Lemma sha256_spec : forall msg d, Forall is_byte msg -> (Forall is_byte d /\ sha256_digest (bits_of msg) (bits_of d) <-> d = sha256 msg).
Proof. apply sha_bytes; [intros; apply flat_be_bytes|exact sha256_bits]. Qed.
Lemma sha512_spec : forall msg d, Forall is_byte msg -> (Forall is_byte d /\ sha512_digest (bits_of msg) (bits_of d) <-> d = sha512 msg).
Proof. apply sha_bytes; [intros; apply flat_be_bytes|exact sha512_bits]. Qed.
Lemma sha1_spec : forall msg d, Forall is_byte msg -> (Forall is_byte d /\ sha1_digest (bits_of msg) (bits_of d) <-> d = sha1 msg).
Proof. apply sha_bytes; [intros; apply flat_be_bytes|exact sha1_bits]. Qed.
