(** Proofs about the layout of [Debug] texts. *)

From Coq Require Import String List.
From Verif Require Import Lib Base Utf8 Base64 Canon BodyHash Header Domain Signature KeyRecord Crypto Format Sign Verify Report Debug
  SpecText SpecFormat SpecHeader SpecSign SpecVerify SpecDomain SpecDebug SpecShow Base64Proofs FormatProofs ProgramsProofs DebugProofs DebugTrees DebugUnique DebugParsed.
Import ListNotations.
Open Scope N_scope.

Definition show (st : style) (t : Tree) : str := match st with Flat => compact t | Indented => pretty t end.

(** ** Layout *)

Lemma listed_exact : forall xs t, comma_separated xs = t <-> listed xs t.
Proof.
  induction xs as [|x xs IH]; intros t.
  - split; [intros <-; constructor|intros H; inv H; reflexivity].
  - destruct xs as [|y xs].
    + split; [intros <-; constructor|]. intros H; inv H; [reflexivity|congruence].
    + change (comma_separated (x :: y :: xs)) with (x ++ lit ", " ++ comma_separated (y :: xs)). split.
      * intros <-. constructor; [discriminate|]. apply IH. reflexivity.
      * intros H; inv H. apply IH in H4. rewrite H4. reflexivity.
Qed.

Lemma joined_lines : forall s, concat (map (fun l => l ++ [10]) (lines s)) = s ++ [10].
Proof.
  induction s as [|c s IH]; [reflexivity|]. unfold lines in *. cbn [split_on]. destruct (c =? 10) eqn:E.
  - apply N.eqb_eq in E. subst c. cbn [map concat app]. rewrite IH. reflexivity.
  - destruct (split_on 10 s) as [|p ps] eqn:X; [destruct (split_on_nonempty 10 s X)|].
    cbn [map concat app] in *. rewrite IH. reflexivity.
Qed.

Lemma pad_joined : forall s b, pad b (s ++ [10])
  = match lines s with
    | [] => []
    | l :: ls => (if b then lit "    " else []) ++ l ++ [10] ++ concat (map (fun l => (lit "    " ++ l) ++ [10]) ls)
    end.
Proof.
  induction s as [|c s IH]; intros b.
  - destruct b; reflexivity.
  - cbn [app pad]. rewrite IH. unfold lines. cbn [split_on]. destruct (split_on 10 s) as [|p ps] eqn:X; [destruct (split_on_nonempty 10 s X)|].
    destruct (c =? 10) eqn:E.
    + apply N.eqb_eq in E. subst c. cbn [map concat]. rewrite <- !app_assoc. reflexivity.
    + reflexivity.
Qed.

Lemma pad_block : forall x, pad true (x ++ lit "," ++ [10]) = concat (map (fun l => l ++ [10]) (indented_lines x)).
Proof.
  intros x. rewrite app_assoc, pad_joined. unfold indented_lines. destruct (lines (x ++ lit ",")) as [|l ls]; [reflexivity|].
  cbn [map concat]. rewrite map_map, <- !app_assoc. reflexivity.
Qed.

Lemma block_exact : forall A (f : A -> str) l, flat_map (fun v => pad true (f v ++ lit "," ++ [10])) l = block (map f l).
Proof.
  intros A f l. unfold block. induction l as [|x l IH]; [reflexivity|]. cbn [flat_map map]. rewrite map_app, concat_app, IH, pad_block. reflexivity.
Qed.

Lemma is_nil_map : forall A B (f : A -> B) l, is_nil (map f l) = is_nil l.
Proof. intros A B f []; reflexivity. Qed.

Lemma items_exact : forall st l t, show st (Items l) = t <-> bracketed st (lit "[") [] (map (show st) l) (lit "]") t.
Proof.
  intros [] l t; cbn [show bracketed].
  - cbn [compact]. split; [intros <-|].
    + eexists. split; [apply listed_exact; reflexivity|reflexivity].
    + intros (m & M & ->). apply listed_exact in M. rewrite <- M. reflexivity.
  - cbn [pretty]. rewrite is_nil_map, block_exact. destruct (is_nil l); rewrite <- ?app_assoc; split; intros X; [rewrite <- X|rewrite X|rewrite <- X|rewrite X]; reflexivity.
Qed.

Lemma tuple_exact : forall st name l t, l <> [] -> is_nil name && Nat.eqb (length l) 1 = false ->
  show st (Tuple name l) = t <-> bracketed st (name ++ lit "(") [] (map (show st) l) (lit ")") t.
Proof.
  intros st name l t N S. assert (is_nil l = false) as Nl by (destruct l; [congruence|reflexivity]).
  destruct st; cbn [show bracketed].
  - cbn [compact]. rewrite Nl, S. split; [intros <-|].
    + eexists. split; [apply listed_exact; reflexivity|rewrite <- !app_assoc; reflexivity].
    + intros (m & M & ->). apply listed_exact in M. rewrite <- M. rewrite <- !app_assoc. reflexivity.
  - cbn [pretty]. rewrite is_nil_map, block_exact, Nl. rewrite <- ?app_assoc. split; intros X; [rewrite <- X|rewrite X]; reflexivity.
Qed.

Lemma struct_exact : forall st name l t, l <> [] ->
  show st (Struct name l) = t
  <-> bracketed st (name ++ lit " {") [32] (map (fun nv => fst nv ++ lit ": " ++ show st (snd nv)) l) (lit "}") t.
Proof.
  intros st name l t N. assert (is_nil l = false) as Nl by (destruct l; [congruence|reflexivity]).
  destruct st; cbn [show bracketed].
  - cbn [compact]. rewrite Nl.
    replace (map (fun '(n, v) => n ++ lit ": " ++ compact v) l) with (map (fun nv => fst nv ++ lit ": " ++ compact (snd nv)) l)
      by (apply map_ext; intros []; reflexivity).
    split; [intros <-|].
    + eexists. split; [apply listed_exact; reflexivity|rewrite <- !app_assoc; reflexivity].
    + intros (m & M & ->). apply listed_exact in M. rewrite <- M. rewrite <- !app_assoc. reflexivity.
  - cbn [pretty]. rewrite is_nil_map, Nl.
    replace (flat_map (fun '(n, v) => pad true (n ++ lit ": " ++ pretty v ++ lit "," ++ [10])) l)
      with (block (map (fun nv => fst nv ++ lit ": " ++ pretty (snd nv)) l)).
    2: { rewrite <- block_exact. apply flat_map_ext. intros [n v]. cbn [fst snd]. rewrite <- !app_assoc. reflexivity. }
    rewrite <- ?app_assoc. split; intros X; [rewrite <- X|rewrite X]; reflexivity.
Qed.

(** ** Parts *)

(** the predicate says what the text of the tree is *)
Definition exact (st : style) (tree : Tree) (P : str -> Prop) : Prop := forall t, show st tree = t <-> P t.

Lemma exact_map : forall A st (f : A -> Tree) (P : A -> str -> Prop) l, Forall (fun a => exact st (f a) (P a)) l ->
  forall xs, Forall2 P l xs <-> xs = map (show st) (map f l).
Proof.
  intros A st f P l H. induction H as [|a l Ha _ IH]; intros xs.
  - split; [intros X; inv X; reflexivity|intros ->; constructor].
  - split.
    + intros X; inv X. apply IH in H3. apply Ha in H1. subst. reflexivity.
    + intros ->. cbn [map]. constructor; [apply Ha; reflexivity|apply IH; reflexivity].
Qed.

Lemma list_exact : forall A st (f : A -> Tree) P l, Forall (fun a => exact st (f a) (P a)) l -> exact st (Items (map f l)) (list_of st P l).
Proof.
  intros A st f P l H t. rewrite items_exact. pose proof (exact_map _ _ _ _ _ H) as M. unfold list_of. split.
  - intros B. eexists. split; [apply M; reflexivity|exact B].
  - intros (xs & X & B). apply M in X. subst. exact B.
Qed.

Lemma exact_parts : forall st trees (ps : list (str -> Prop)), Forall2 (exact st) trees ps ->
  forall xs, Forall2 (fun (p : str -> Prop) x => p x) ps xs <-> xs = map (show st) trees.
Proof.
  intros st trees ps H. induction H as [|a p l ps Ha _ IH]; intros xs.
  - split; [intros X; inv X; reflexivity|intros ->; constructor].
  - split.
    + intros X; inv X. apply IH in H3. apply Ha in H1. subst. reflexivity.
    + intros ->. cbn [map]. constructor; [apply Ha; reflexivity|apply IH; reflexivity].
Qed.

Lemma tuple_parts : forall st name trees ps, trees <> [] -> is_nil (lit name) && Nat.eqb (length trees) 1 = false ->
  Forall2 (exact st) trees ps -> exact st (Tuple (lit name) trees) (tuple_of st name ps).
Proof.
  intros st name trees ps N S H t. rewrite tuple_exact by assumption. pose proof (exact_parts _ _ _ H) as M. unfold tuple_of. split.
  - intros B. eexists. split; [apply M; reflexivity|exact B].
  - intros (xs & X & B). apply M in X. subst. exact B.
Qed.

Lemma exact_fields : forall st trees (fs : list (string * (str -> Prop))),
  Forall2 (fun nv f => fst nv = lit (fst f) /\ exact st (snd nv) (snd f)) trees fs ->
  forall xs, Forall2 (fun f x => exists v, snd f v /\ x = lit (fst f) ++ lit ": " ++ v) fs xs
    <-> xs = map (fun nv => fst nv ++ lit ": " ++ show st (snd nv)) trees.
Proof.
  intros st trees fs H. induction H as [|a p l ps [Hn Ha] _ IH]; intros xs.
  - split; [intros X; inv X; reflexivity|intros ->; constructor].
  - split.
    + intros X; inv X. apply IH in H3. destruct H1 as (v & V & ->). apply Ha in V. subst. cbn [map]. rewrite Hn. reflexivity.
    + intros ->. cbn [map]. constructor; [exists (show st (snd a)); split; [apply Ha; reflexivity|rewrite Hn; reflexivity]|apply IH; reflexivity].
Qed.

Lemma struct_fields : forall st name trees fs, trees <> [] ->
  Forall2 (fun nv f => fst nv = lit (fst f) /\ exact st (snd nv) (snd f)) trees fs ->
  exact st (Struct (lit name) trees) (struct_of st name fs).
Proof.
  intros st name trees fs N H t. rewrite struct_exact by assumption. pose proof (exact_fields _ _ _ H) as M. unfold struct_of. split.
  - intros B. eexists. split; [apply M; reflexivity|exact B].
  - intros (xs & X & B). apply M in X. subst. exact B.
Qed.

Lemma option_exact : forall A st (f : A -> Tree) P o, (forall a, o = Some a -> exact st (f a) (P a)) ->
  exact st (option_tree f o) (option_of st P o).
Proof.
  intros A st f P [a|] H.
  - apply (tuple_parts st "Some"); [discriminate|reflexivity|]. repeat constructor; apply H; reflexivity.
  - intros t. destruct st; cbn; split; congruence.
Qed.

Lemma text_exact : forall st s P, (forall t, s = t <-> P t) -> exact st (Text s) P.
Proof. intros st s P H t. destruct st; cbn [show compact pretty]; apply H. Qed.

Ltac eqs := let t := fresh "t" in intros t; split; congruence.
Lemma as_is_exact : forall st s, exact st (Text s) (as_is s).
Proof. intros. apply text_exact. unfold as_is. eqs. Qed.
Lemma word_exact : forall st w, exact st (Text (lit w)) (word w).
Proof. intros. apply text_exact. unfold word. eqs. Qed.
Lemma number_exact : forall st n, exact st (number_tree n) (number_of n).
Proof.
  intros st n. apply text_exact. intros t. unfold number_of. split; [intros <-; apply dec_str_spec|].
  intros H. eapply decimal_text_det; [apply dec_str_spec|exact H].
Qed.
Lemma base64_exact : forall st bs, Forall is_byte bs -> exact st (base64_tree bs) (base64_of st bs).
Proof.
  intros st bs B. unfold base64_tree. rewrite encode_nil. destruct bs as [|b bs].
  - apply text_exact. eqs.
  - apply (tuple_parts st "Base64"); [discriminate|reflexivity|]. constructor; [|constructor]. apply text_exact. intros t. split.
    + intros <-. apply encode_base64_spec. exact B.
    + intros H. eapply base64_det; [apply encode_base64_spec; exact B|exact H].
Qed.

(** every name is in the table, once *)
Lemma words_exact : forall A st (f : A -> str) (words : list (A * string)),
  (forall a, exists w, In (a, w) words) -> Forall (fun p => f (fst p) = lit (snd p)) words ->
  forall a, exact st (Text (f a)) (word_in words a).
Proof.
  intros A st f words All H a. apply text_exact. intros t. rewrite Forall_forall in H. unfold word_in. split.
  - intros <-. destruct (All a) as [w I]. exists w. split; [exact I|]. exact (H _ I).
  - intros (w & I & ->). exact (H _ I).
Qed.

Section WithTables.
Variable T : Tables.
Hypothesis TOk : tables_ok T.

Lemma quotes_exact : forall st s, text_typed s -> exact st (str_tree T s) (in_quotes T s).
Proof. intros st s H. apply text_exact. intros t. apply str_debug_exact; assumption. Qed.
Lemma optional_quotes_exact : forall st o, optional_typed o -> exact st (option_tree (str_tree T) o) (option_of st (in_quotes T) o).
Proof. intros st o H. apply option_exact. intros s E. apply quotes_exact. apply H. exact E. Qed.
Lemma value_exact : forall st bs, Forall is_byte bs -> exact st (Text (bytes_debug T bs)) (value_in_quotes T bs).
Proof. intros st bs H. apply text_exact. intros t. apply bytes_debug_exact. assumption. Qed.

Lemma tags_exact : forall st l, texts_typed l -> exact st (tags_tree T l) (list_of st (tag_of T st) l).
Proof.
  intros st l H. apply list_exact. eapply Forall_impl; [|exact H]. intros [n v] [A B]. unfold tag_of. cbn [fst snd].
  apply (tuple_parts st ""); [discriminate|reflexivity|]. repeat constructor; apply quotes_exact; assumption.
Qed.
Lemma fields_exact : forall st l, values_typed l ->
  exact st (Items (map (fun '(n, v) => Tuple [] [name_tree n; Text (bytes_debug T v)]) l)) (list_of st (field_of T st) l).
Proof.
  intros st l H. apply list_exact. eapply Forall_impl; [|exact H]. intros [n v] B. unfold field_of. cbn [fst snd] in *.
  apply (tuple_parts st ""); [discriminate|reflexivity|]. constructor; [apply as_is_exact|]. constructor; [apply value_exact; exact B|constructor].
Qed.

Ltac field := constructor; [split; [reflexivity|cbn [snd]]|].

Theorem header_exact : forall st h, values_typed h -> exact st (header_tree T h) (header_of T st h).
Proof.
  intros st h H. apply (tuple_parts st "HeaderFields"); [discriminate|reflexivity|]. constructor; [|constructor]. apply fields_exact. exact H.
Qed.

Theorem signature_exact : forall st s, signature_typed s -> exact st (sig_tree T s) (signature_of T st s).
Proof.
  intros st s (A & B & C & D). apply struct_fields; [discriminate|].
  field. { destruct (s_algorithm s); apply word_exact. }
  field. { apply base64_exact. exact A. }
  field. { apply base64_exact. exact B. }
  field. { apply text_exact. unfold canonicalization_of, canonicalization_str. destruct (s_canonicalization s) as [[] []]; intros t; split; intros X; (rewrite <- X || rewrite X); reflexivity. }
  field. { apply as_is_exact. }
  field. { apply list_exact. apply Forall_forall. intros x _. apply as_is_exact. }
  field. { apply option_exact. intros i _. apply text_exact. intros t. unfold identity_of. destruct (id_local_part i); split; intros X; (rewrite <- X || rewrite X); reflexivity. }
  field. { apply option_exact. intros i _. apply number_exact. }
  field. { apply as_is_exact. }
  field. { apply option_exact. intros i _. apply number_exact. }
  field. { apply option_exact. intros i _. apply number_exact. }
  field. { apply fields_exact. exact C. }
  field. { apply tags_exact. exact D. }
  constructor.
Qed.

Ltac table := let a := fresh "a" in
  apply words_exact; [intros a; destruct a; eexists; cbn; tauto|repeat constructor].

Theorem signature_error_exact : forall st e, signature_error_typed e -> exact st (sig_error_tree T e) (signature_error_of T st e).
Proof.
  intros st e (A & B & C & D & F). apply struct_fields; [discriminate|].
  field. { table. }
  do 5 (field; [apply optional_quotes_exact; assumption|]). constructor.
Qed.

Theorem record_exact : forall st r, record_typed r -> exact st (record_tree T r) (record_of T st r).
Proof.
  intros st r (A & B & C). apply struct_fields; [discriminate|].
  field. { apply list_exact. apply Forall_forall. intros [] _; apply word_exact. }
  field. { destruct (k_key_type r); apply word_exact. }
  field. { apply optional_quotes_exact. exact A. }
  field. { apply base64_exact. exact B. }
  field. { apply list_exact. apply Forall_forall. intros [] _; apply word_exact. }
  field. { apply list_exact. apply Forall_forall. intros [] _; apply word_exact. }
  field. { apply tags_exact. exact C. }
  constructor.
Qed.

Theorem record_error_exact : forall st e, exact st (Text (record_error_name e)) (word_in record_error_words e).
Proof. intros st. table. Qed.
Theorem request_error_exact : forall st e, exact st (Text (request_error_name e)) (word_in request_error_words e).
Proof. intros st. table. Qed.
Theorem signing_error_exact : forall st e, exact st (Text (signing_error_name e)) (word_in signing_error_words e).
Proof. intros st. table. Qed.
Lemma crypto_error_exact : forall st e, exact st (Text (crypto_error_name e)) (word_in crypto_error_words e).
Proof. intros st. table. Qed.
Lemma policy_error_exact : forall st e, exact st (Text (policy_error_name e)) (word_in policy_error_words e).
Proof. intros st. table. Qed.

Ltac part := apply tuple_parts; [discriminate|reflexivity|constructor; [|constructor]].
Theorem error_exact : forall st e, (forall x, e = DkimSignatureFormat x -> signature_error_typed x) -> exact st (error_tree T e) (error_of T st e).
Proof.
  intros st e H t.
  assert (forall Q : str -> Prop, exact st (error_tree T e) Q -> (forall t, Q t -> error_of T st e t) ->
    (forall t, error_of T st e t -> Q t) -> show st (error_tree T e) = t <-> error_of T st e t) as K.
  { intros Q X Y Z. split; [intros E; apply Y, X; exact E|intros E; apply X, Z; exact E]. }
  assert (forall w, error_tree T e = Text (lit w) -> In (e, w) plain_error_words -> show st (error_tree T e) = t <-> error_of T st e t) as W.
  { intros w Ew I. apply (K (word w)); [rewrite Ew; apply word_exact| |]; intros x X.
    - apply eo_plain. exists w. split; [exact I|exact X].
    - assert (word_in plain_error_words e x) as (w' & I' & ->).
      { inv X; [assumption|cbn in I; intuition discriminate..]. }
      unfold word. f_equal. cbn in I, I'. intuition congruence. }
  destruct e as [e| | | | | |e| | | | |e| | |e]; try (eapply W; [reflexivity|cbn; tauto]).
  - apply (K (tuple_of st "DkimSignatureFormat" [signature_error_of T st e])).
    + part. apply signature_error_exact. apply H. reflexivity.
    + intros; constructor; assumption.
    + intros x X; inv X; [|assumption]. destruct H0 as (w & I & _). cbn in I. intuition discriminate.
  - apply (K (tuple_of st "KeyRecordFormat" [word_in record_error_words e])).
    + part. apply record_error_exact.
    + intros; constructor; assumption.
    + intros x X; inv X; [|assumption]. destruct H0 as (w & I & _). cbn in I. intuition discriminate.
  - apply (K (tuple_of st "VerificationFailure" [word_in crypto_error_words e])).
    + part. apply crypto_error_exact.
    + intros; constructor; assumption.
    + intros x X; inv X; [|assumption]. destruct H0 as (w & I & _). cbn in I. intuition discriminate.
  - apply (K (tuple_of st "Policy" [word_in policy_error_words e])).
    + part. apply policy_error_exact.
    + intros; constructor; assumption.
    + intros x X; inv X; [|assumption]. destruct H0 as (w & I & _). cbn in I. intuition discriminate.
Qed.

Theorem result_exact : forall st r, result_typed r -> exact st (result_tree T r) (result_of T st r).
Proof.
  intros st r (A & B & C). apply struct_fields; [discriminate|].
  field.
  { intros t. destruct (vr_status r) as [|e].
    - split; [intros <-; destruct st; constructor|]. intros X; inv X. destruct st; reflexivity.
    - assert (exact st (status_tree T (Failure e)) (tuple_of st "Failure" [error_of T st e])) as X.
      { part. apply error_exact. intros x ->. apply A. reflexivity. }
      split; intros Y; [constructor; apply X; exact Y|]. inv Y. apply X. assumption. }
  field. { apply number_exact. }
  field. { apply option_exact. intros s E. apply signature_exact. apply B. exact E. }
  field. { apply option_exact. intros s E. apply record_exact. apply C. exact E. }
  constructor.
Qed.

Theorem format_exact : forall st f, text_typed (of_header_name f) -> text_typed (of_indentation f) ->
  exact st (format_tree T f) (format_of T st f).
Proof.
  intros st f A B. apply struct_fields; [discriminate|].
  field. { apply quotes_exact. exact A. }
  field. { apply number_exact. }
  field. { apply quotes_exact. exact B. }
  field. { apply option_exact. intros. apply word_exact. }
  field. { destruct (of_ascii_only f); apply word_exact. }
  constructor.
Qed.

Theorem output_exact : forall st o, text_typed (so_header_name o) -> text_typed (so_header_value o) -> signature_typed (so_signature o) ->
  exact st (output_tree T o) (output_of T st o).
Proof.
  intros st o A B C. apply struct_fields; [discriminate|].
  field. { apply quotes_exact. exact A. }
  field. { apply quotes_exact. exact B. }
  field. { apply signature_exact. exact C. }
  constructor.
Qed.
End WithTables.

(** ** Results of verification *)

Lemma shown_typed : forall r, result_shown r -> result_typed r.
Proof.
  intros r [A B C]. split; [|split].
  - intros e E. destruct (A _ E _ eq_refl) as [A1 A2 A3 A4 A5]. repeat split; assumption.
  - intros s E. destruct (B _ E) as [B1 B2 _ _ _ _ B3 B4]. repeat split; try assumption.
    eapply Forall_impl; [|exact B3]. intros f [_ X]. exact X.
  - intros k E. destruct (C _ E) as [C1 C2 C3]. repeat split; assumption.
Qed.
Theorem results_typed : forall E w headers config chunks rs, idna_keeps (env_idna E) -> world_ok w -> header_fields headers ->
  verify_message E w headers config chunks = Val (Some rs) -> Forall result_typed rs.
Proof. intros E w headers config chunks rs K W H V. eapply Forall_impl; [exact shown_typed|]. eapply results_shown; eauto. Qed.
