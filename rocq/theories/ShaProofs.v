(** Proofs that the concrete SHA-1, SHA-256 and SHA-512 are those specified. *)

From Coq Require Import List NArith Arith.
From Verif Require Import Base SpecRsa SpecSha Concrete Lib ConcreteProofs ShaWordProofs ShaConstProofs.
Import ListNotations.
Open Scope N_scope.

(** ** Bytes and words *)

Lemma word_of_bytes : forall bs, Forall is_byte bs -> word_of (8 * length bs) (from_be bs) = bits_of bs.
Proof.
  induction bs as [|b bs IH] using rev_ind; intros H; [reflexivity|]. apply Forall_app in H. destruct H as [H Hb]. inversion Hb; subst.
  rewrite app_length. cbn [length]. replace (8 * (length bs + 1))%nat with (8 * length bs + 8)%nat by lia.
  unfold bits_of. rewrite word_of_app, flat_map_app. cbn [flat_map]. rewrite app_nil_r, from_be_snoc. fold (bits_of bs).
  rewrite <- (IH H). unfold is_byte in *. f_equal.
  - f_equal. rewrite N.shiftr_div_pow2. change (2 ^ N.of_nat 8) with 256. rewrite N.mul_comm, N.add_comm, N.div_add by lia. rewrite N.div_small; [reflexivity|assumption].
  - rewrite <- word_of_mod. change (2 ^ N.of_nat 8) with 256. rewrite N.mul_comm, N.add_comm, N.mod_add by lia. now rewrite N.mod_small.
Qed.

Lemma bits_of_length : forall bs, length (bits_of bs) = (8 * length bs)%nat.
Proof. induction bs; [reflexivity|]. unfold bits_of in *. cbn [flat_map length]. rewrite app_length, IHbs, word_of_length. lia. Qed.

Lemma bits_of_app : forall a b, bits_of (a ++ b) = bits_of a ++ bits_of b.
Proof. intros. apply flat_map_app. Qed.

Lemma bits_of_be : forall n x, bits_of (to_be n x) = word_of (8 * n) x.
Proof.
  intros n x. rewrite <- word_of_bytes by apply to_be_bytes. rewrite to_be_length, from_to_be. replace (256 ^ N.of_nat n) with (2 ^ N.of_nat (8 * n)).
  - apply word_of_mod.
  - replace (N.of_nat (8 * n)) with (8 * N.of_nat n) by lia. rewrite N.pow_mul_r. reflexivity.
Qed.

Lemma bits_of_inj : forall a b, Forall is_byte a -> Forall is_byte b -> bits_of a = bits_of b -> a = b.
Proof.
  induction a as [|x a IH]; intros [|y b] A B E; [reflexivity|discriminate|discriminate|]. inversion A; inversion B; subst.
  assert (E' : word_of 8 x ++ bits_of a = word_of 8 y ++ bits_of b) by exact E.
  assert (F : word_of 8 x = word_of 8 y /\ bits_of a = bits_of b).
  { pose proof (f_equal (firstn 8) E') as F1. pose proof (f_equal (skipn 8) E') as F2.
    rewrite !firstn_app, !word_of_length, !firstn_all2, !app_nil_r in F1 by (rewrite word_of_length; lia).
    rewrite !skipn_app, !word_of_length, !skipn_all2 in F2 by (rewrite word_of_length; lia). split; assumption. }
  destruct F as [F1 F2]. f_equal; [|now apply IH].
  apply (f_equal number) in F1. rewrite !number_word in F1. change (2 ^ N.of_nat 8) with 256 in F1. unfold is_byte in *. now rewrite !N.mod_small in F1.
Qed.

(** ** Lists *)

Lemma concat_inj : forall A n (x y : list (list A)), (0 < n)%nat -> Forall (fun l => length l = n) x -> Forall (fun l => length l = n) y -> concat x = concat y -> x = y.
Proof.
  intros A n x. induction x as [|a x IH]; intros [|b y] P X Y E; [reflexivity| | |].
  - inversion Y; subst. destruct b; [cbn in P; lia|discriminate].
  - inversion X; subst. destruct a; [cbn in P; lia|discriminate].
  - inversion X; inversion Y; subst. cbn [concat] in E.
    pose proof (f_equal (firstn (length b)) E) as F1. pose proof (f_equal (skipn (length b)) E) as F2.
    rewrite !firstn_app, !firstn_all2 in F1 by lia. rewrite !skipn_app, !skipn_all2 in F2 by lia.
    replace (length b - length a)%nat with O in F1, F2 by lia. replace (length b - length b)%nat with O in F1, F2 by lia. cbn [firstn skipn app] in F1, F2. rewrite !app_nil_r in F1.
    rewrite firstn_all in F1. rewrite skipn_all in F2. cbn [app] in F2. subst b. f_equal. now apply IH.
Qed.

Lemma groups_concat : forall fuel size bs, (0 < size)%nat -> (length bs <= fuel)%nat -> concat (groups fuel size bs) = bs.
Proof.
  induction fuel; intros size bs S F; [destruct bs; [reflexivity|cbn in F; lia]|]. destruct bs as [|b bs]; [reflexivity|].
  cbn [groups concat]. rewrite IHfuel; [apply firstn_skipn|exact S|]. rewrite skipn_length. cbn [length] in *. lia.
Qed.

Lemma groups_sizes : forall fuel size m bs, (0 < size)%nat -> length bs = (m * size)%nat -> Forall (fun l => length l = size) (groups fuel size bs).
Proof.
  induction fuel; intros size m bs S F; [constructor|]. destruct bs as [|b bs]; [constructor|]. cbn [groups].
  destruct m as [|m]; [discriminate|]. constructor.
  - rewrite firstn_length. lia.
  - apply IHfuel with m; [exact S|]. rewrite skipn_length. lia.
Qed.

Lemma groups_count : forall fuel size m bs, (0 < size)%nat -> (length bs <= fuel)%nat -> length bs = (m * size)%nat -> length (groups fuel size bs) = m.
Proof.
  induction fuel; intros size m bs S L F; [destruct bs; [|cbn in L; lia]; cbn [length groups] in *; nia|]. destruct bs as [|b bs]; [cbn [length groups] in *; nia|].
  destruct m as [|m]; [discriminate|]. cbn [groups length]. f_equal. apply IHfuel; rewrite ?skipn_length; cbn [length] in *; lia.
Qed.

Lemma groups_bytes : forall fuel size bs, Forall is_byte bs -> Forall (Forall is_byte) (groups fuel size bs).
Proof.
  induction fuel; intros size bs H; [constructor|]. destruct bs as [|b bs]; [constructor|]. cbn [groups]. constructor.
  - rewrite <- (firstn_skipn size (b :: bs)) in H. apply Forall_app in H. apply H.
  - apply IHfuel. rewrite <- (firstn_skipn size (b :: bs)) in H. apply Forall_app in H. apply H.
Qed.

Lemma blocks_hash_cons : forall w rounds next step b bs h h'', blocks_hash w rounds next step (b :: bs) h h'' ->
  exists h', block_hash w rounds next step b h h' /\ blocks_hash w rounds next step bs h' h''.
Proof. intros w rounds next step b bs h h'' X. inversion X; subst. eauto. Qed.

(** ** Padding *)

Section Digest.
Variable wb rounds : nat.
Hypothesis WB : wb = 4%nat \/ wb = 8%nat.
Notation w := (8 * wb)%nat.
Notation B := (word_of (8 * wb)).

Definition zeros (n : nat) : nat := ((2 * (16 * wb) - 1 - 2 * wb - n mod (16 * wb)) mod (16 * wb))%nat.
Definition padding (msg : list byte) : list byte := msg ++ [128] ++ repeat 0 (zeros (length msg)) ++ to_be (2 * wb) (8 * N.of_nat (length msg)).

Lemma zero_bits : forall n, bits_of (repeat 0 n) = repeat false (8 * n).
Proof.
  induction n; [reflexivity|]. cbn [repeat]. unfold bits_of in *. cbn [flat_map]. rewrite IHn.
  replace (8 * S n)%nat with (8 + 8 * n)%nat by lia. rewrite repeat_app. reflexivity.
Qed.

Lemma padding_bits : forall msg, bits_of (padding msg)
  = bits_of msg ++ [true] ++ repeat false (7 + 8 * zeros (length msg)) ++ word_of (2 * w) (N.of_nat (length (bits_of msg))).
Proof.
  intros msg. unfold padding. rewrite !bits_of_app, zero_bits, bits_of_be, bits_of_length.
  change (bits_of [128]) with ([true] ++ repeat false 7). rewrite repeat_app, <- !app_assoc.
  replace (8 * (2 * wb))%nat with (2 * w)%nat by lia. replace (8 * N.of_nat (length msg)) with (N.of_nat (8 * length msg)) by lia. reflexivity.
Qed.

Lemma zeros_right : forall n, ((8 * n + 1 + (7 + 8 * zeros n)) mod (16 * w) = 14 * w)%nat.
Proof. intros n. unfold zeros. destruct WB as [-> | ->]; lia. Qed.
Lemma zeros_bound : forall n, (7 + 8 * zeros n < 16 * w)%nat.
Proof. intros n. unfold zeros. destruct WB as [-> | ->]; lia. Qed.
Lemma zeros_least : forall n j, ((8 * n + 1 + j) mod (16 * w) = 14 * w)%nat -> (7 + 8 * zeros n <= j)%nat.
Proof. intros n j. pose proof (zeros_right n) as R. pose proof (zeros_bound n) as L. destruct WB as [-> | ->]; lia. Qed.

Lemma padded_iff : forall msg p, padded w (bits_of msg) p <-> p = bits_of (padding msg).
Proof.
  intros msg p. rewrite padding_bits. unfold padded. rewrite bits_of_length. split.
  - intros (k & -> & R & L). replace k with (7 + 8 * zeros (length msg))%nat; [reflexivity|].
    pose proof (zeros_least _ _ R). specialize (L _ (zeros_right (length msg))). lia.
  - intros ->. eexists. split; [reflexivity|]. split; [apply zeros_right|]. intros j J. now apply zeros_least.
Qed.

Lemma padding_length : forall msg, exists m, length (padding msg) = (m * (16 * wb))%nat.
Proof.
  intros msg. unfold padding. rewrite !app_length, repeat_length, to_be_length. cbn [length].
  pose proof (zeros_right (length msg)) as R.
  exists ((length msg + (1 + (zeros (length msg) + 2 * wb))) / (16 * wb))%nat.
  destruct WB as [-> | ->]; lia.
Qed.

Lemma padding_bytes : forall msg, Forall is_byte msg -> Forall is_byte (padding msg).
Proof.
  intros msg H. unfold padding. apply Forall_app. split; [exact H|]. constructor; [unfold is_byte; lia|]. apply Forall_app. split; [|apply to_be_bytes].
  apply Forall_forall. intros x X. apply repeat_spec in X. subst. unfold is_byte. lia.
Qed.

(** ** Blocks *)

Definition good_block (b : list N) : Prop := length b = 16%nat /\ Forall (small_word w) b.

Lemma small_bytes : forall bs, Forall is_byte bs -> length bs = wb -> small_word w (from_be bs).
Proof.
  intros bs H L. unfold small_word. replace (2 ^ N.of_nat w) with (256 ^ N.of_nat (length bs)); [now apply from_be_bound|].
  rewrite L. replace (N.of_nat w) with (8 * N.of_nat wb) by lia. rewrite N.pow_mul_r. reflexivity.
Qed.

Lemma blocks_parsed : forall msg, Forall is_byte msg ->
  Forall good_block (blocks wb (16 * wb) msg)
  /\ forall bs, parsed w (bits_of (padding msg)) bs <-> bs = map (map B) (blocks wb (16 * wb) msg).
Proof.
  intros msg H. pose proof (padding_bytes msg H) as PB. destruct (padding_length msg) as (m & PL).
  change (blocks wb (16 * wb) msg) with (map (fun b => map from_be (groups (length b) wb b)) (groups (length (padding msg)) (16 * wb) (padding msg))).
  set (gs := groups (length (padding msg)) (16 * wb) (padding msg)).
  assert (P : (0 < wb)%nat) by lia.
  assert (G1 : Forall (fun l => length l = (16 * wb)%nat) gs) by (apply groups_sizes with m; [lia|exact PL]).
  assert (G2 : Forall (Forall is_byte) gs) by now apply groups_bytes.
  assert (G3 : concat gs = padding msg) by (apply groups_concat; lia).
  assert (G4 : Forall (fun l => Forall (fun g => length g = wb) (groups (length l) wb l) /\ length (groups (length l) wb l) = 16%nat
                        /\ Forall (Forall is_byte) (groups (length l) wb l)) gs).
  { rewrite Forall_forall in *. intros l L. specialize (G1 l L). specialize (G2 l L). split; [|split].
    - apply groups_sizes with 16%nat; [exact P|exact G1].
    - apply groups_count; [exact P|lia|exact G1].
    - now apply groups_bytes. }
  assert (S1 : Forall good_block (map (fun b => map from_be (groups (length b) wb b)) gs)).
  { apply Forall_map. eapply Forall_impl; [|exact G4]. intros l (L1 & L2 & L3). split; [now rewrite map_length|].
    apply Forall_map. rewrite Forall_forall in *. intros g G. apply small_bytes; auto. }
  split; [exact S1|].
  assert (S2 : bits_of (padding msg) = concat (concat (map (map B) (map (fun b => map from_be (groups (length b) wb b)) gs)))).
  { rewrite <- G3. clear - G4 P. induction gs as [|l gs IH]; [reflexivity|]. inversion G4 as [|? ? (L1 & L2 & L3) G4']; subst.
    cbn [concat map]. rewrite bits_of_app, concat_app, <- IH by exact G4'. f_equal.
    rewrite <- (groups_concat (length l) wb l P (le_n _)) at 1. clear - L1 L3. induction (groups (length l) wb l) as [|g g' IH]; [reflexivity|].
    inversion L1; inversion L3; subst. cbn [concat map]. rewrite bits_of_app, IH by assumption. f_equal. symmetry. now apply word_of_bytes. }
  assert (S3 : Forall (fun b => length b = 16%nat /\ Forall (fun x => length x = w) b) (map (map B) (map (fun b => map from_be (groups (length b) wb b)) gs))).
  { apply Forall_map. eapply Forall_impl; [|exact S1]. intros b [L _]. split; [now rewrite map_length|]. apply Forall_map. apply Forall_forall. intros x _. apply word_of_length. }
  assert (Z : forall bs, Forall (fun b : list word => length b = 16%nat /\ Forall (fun x => length x = w) b) bs -> Forall (fun x : word => length x = w) (concat bs)).
  { intros bs F. apply Forall_concat. eapply Forall_impl; [|exact F]. intros b [_ X]. exact X. }
  assert (Y : forall bs, Forall (fun b : list word => length b = 16%nat /\ Forall (fun x => length x = w) b) bs -> Forall (fun b : list word => length b = 16%nat) bs).
  { intros bs F. eapply Forall_impl; [|exact F]. intros b [X _]. exact X. }
  intros bs. unfold parsed. split.
  - intros [E F]. rewrite S2 in E. apply (concat_inj _ 16%nat); [lia|now apply Y|now apply Y|]. symmetry.
    apply (concat_inj _ w); [lia|now apply Z|now apply Z|exact E].
  - intros ->. split; [exact S2|exact S3].
Qed.

(** ** Computation *)

Section Computation.
Variable next_word : (nat -> word) -> nat -> word.
Variable step : nat -> word -> list word -> list word.
Hypothesis next_local : forall ws ws' t, (16 <= t)%nat -> (forall u, (u < t)%nat -> ws u = ws' u) -> next_word ws t = next_word ws' t.

Lemma block_iff : forall b h ws vs h',
  (forall t, (t < 16)%nat -> nth_error b t = Some (ws t)) ->
  (forall t, (16 <= t < rounds)%nat -> B (ws t) = next_word (fun u => B (ws u)) t) ->
  vs O = h -> (forall t, (t < rounds)%nat -> map B (vs (S t)) = step t (B (ws t)) (map B (vs t))) -> (16 <= rounds)%nat ->
  (block_hash w rounds next_word step (map B b) (map B h) h' <-> h' = zip (fun x y => sum w [x; y]) (map B (vs rounds)) (map B h)).
Proof.
  intros b h ws vs h' W1 W2 V1 V2 R. split.
  - intros (xs & ys & [X1 X2] & Y1 & Y2 & ->).
    assert (X : forall n t, (t < n)%nat -> (n <= rounds)%nat -> xs t = B (ws t)).
    { induction n; intros t T N; [lia|]. destruct (Nat.eq_dec t n) as [->|]; [|apply IHn; lia].
      destruct (Nat.lt_ge_cases n 16) as [L|L].
      - specialize (X1 n L). rewrite nth_error_map, (W1 n L) in X1. cbn [option_map] in X1. congruence.
      - rewrite X2, W2 by lia. apply next_local; [exact L|]. intros u U. apply IHn; lia. }
    assert (Y : forall t, (t <= rounds)%nat -> ys t = map B (vs t)).
    { induction t; intros T; [now rewrite Y1, V1|]. rewrite Y2, V2, IHt by lia. f_equal. apply X with rounds; lia. }
    now rewrite (Y rounds (le_n _)).
  - intros ->. exists (fun t => B (ws t)), (fun t => map B (vs t)). split; [split|split; [|split]].
    + intros t T. rewrite nth_error_map, (W1 t T). reflexivity.
    + exact W2.
    + now rewrite V1.
    + exact V2.
    + reflexivity.
Qed.

Variable compress : list N -> list N -> list N.
Variable good : list N -> Prop.
Hypothesis compress_good : forall h b, good h -> good_block b -> good (compress h b).
Hypothesis compress_iff : forall h b h', good h -> good_block b ->
  (block_hash w rounds next_word step (map B b) (map B h) h' <-> h' = map B (compress h b)).

Lemma blocks_iff : forall bs h h', good h -> Forall good_block bs ->
  (blocks_hash w rounds next_word step (map (map B) bs) (map B h) h' <-> h' = map B (fold_left compress bs h)).
Proof.
  induction bs as [|b bs IH]; intros h h' G F; cbn [map fold_left].
  - split; [intros X; inversion X; reflexivity|intros ->; constructor].
  - inversion F; subst. split.
    + intros X. apply blocks_hash_cons in X. destruct X as (mid & X & Y). apply compress_iff in X; [|assumption|assumption]. subst mid. apply IH in Y; auto.
    + intros ->. apply bh_block with (map B (compress h b)); [now apply compress_iff|]. apply IH; auto.
Qed.

Lemma digest_iff : forall initial msg d, good initial -> Forall is_byte msg ->
  (digest w rounds next_word step (map B initial) (bits_of msg) d
   <-> d = bits_of (flat_map (to_be wb) (fold_left compress (blocks wb (16 * wb) msg) initial))).
Proof.
  intros initial msg d G F. destruct (blocks_parsed msg F) as [GB P].
  assert (D : forall h, concat (map B h) = bits_of (flat_map (to_be wb) h)).
  { induction h as [|x h IH]; [reflexivity|]. cbn [map concat flat_map]. now rewrite bits_of_app, bits_of_be, IH. }
  unfold digest. split.
  - intros (p & bs & h & X & Y & Z & ->). apply padded_iff in X. subst p. apply P in Y. subst bs. apply blocks_iff in Z; [|exact G|exact GB]. subst h. apply D.
  - intros ->. exists (bits_of (padding msg)), (map (map B) (blocks wb (16 * wb) msg)), (map B (fold_left compress (blocks wb (16 * wb) msg) initial)).
    split; [now apply padded_iff|]. split; [now apply P|]. split; [now apply blocks_iff|]. symmetry. apply D.
Qed.
End Computation.
End Digest.
