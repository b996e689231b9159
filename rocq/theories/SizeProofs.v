(** Proofs: how much body canonicalization writes. *)

From Coq Require Import String List Lia NArith.
From Verif Require Import Base Canon SpecCanon CanonProofs HeaderCanonProofs Lib.
Import ListNotations.
Open Scope N_scope.

(** what is held back *)
Definition held (bc : BodyCanon) : nat :=
  (2 * bc_empty_lines bc + match bc_state bc with SCr | SWsp => 1 | SWspCr => 2 | _ => 0 end)%nat.

Lemma crlfs_length : forall n, length (crlfs n) = (2 * n)%nat.
Proof. induction n; [reflexivity|]. cbn [crlfs]. rewrite app_length, IHn. cbn [length CRLF]. lia. Qed.

Lemma step_size : forall bc b out bc', canon_step bc b = Val (out, bc') -> (length out + held bc' <= S (held bc))%nat.
Proof.
  intros [k st bl el] b out bc' H. unfold canon_step in H. cbn [bc_kind] in H.
  destruct k; [unfold step_simple in H|unfold step_relaxed in H]; cbn [bc_state] in H; destruct st;
    repeat match type of H with
    | context [if ?c then _ else _] => destruct c
    | context [line_end _] => unfold line_end in H; cbn [bc_blank_line] in H
    | context [flush_empty_lines _] => unfold flush_empty_lines in H; cbn [bc_kind bc_state bc_empty_lines] in H
    end; try discriminate H; injection H as <- <-; unfold held; cbn [set_state bc_state bc_empty_lines bc_kind bc_blank_line];
    rewrite ?app_length, ?crlfs_length; cbn [length CRLF]; lia.
Qed.

Lemma chunk_size : forall bytes bc out bc', canonicalize_chunk bc bytes = Val (out, bc') -> (length out + held bc' <= length bytes + held bc)%nat.
Proof.
  induction bytes as [|b bytes IH]; intros bc out bc' H; cbn [canonicalize_chunk] in H.
  - injection H as <- <-. cbn. lia.
  - destruct (canon_step bc b) as [(o, bc1)|] eqn:S; [|discriminate H]. cbn [bind] in H.
    destruct (canonicalize_chunk bc1 bytes) as [(o', bc2)|] eqn:R; [|discriminate H]. cbn [bind] in H. injection H as <- <-.
    apply step_size in S. apply IH in R. rewrite app_length. cbn [length]. lia.
Qed.

Lemma finish_size : forall bc out, bc_finish bc = Val out -> (length out <= held bc + 2)%nat.
Proof.
  intros [k st bl el] out H. unfold bc_finish in H. cbn [bc_kind bc_state] in H.
  destruct k, st; try discriminate H; unfold flush_empty_lines in H; cbn [bc_empty_lines] in H; injection H as <-; unfold held; cbn [bc_state bc_empty_lines];
    rewrite ?app_length, ?crlfs_length; cbn [length CRLF]; lia.
Qed.

Lemma chunks_size : forall chunks bc out bc', canonicalize_chunks bc chunks = Val (out, bc') -> (length out + held bc' <= length (concat chunks) + held bc)%nat.
Proof. intros chunks bc out bc' H. rewrite canonicalize_chunks_concat in H. apply chunk_size in H. exact H. Qed.

(** never more than has been read *)
Theorem written_size : forall alg chunks out bc, canonicalize_chunks (bc_new alg) chunks = Val (out, bc) ->
  (length out <= length (concat chunks))%nat.
Proof. intros alg chunks out bc H. apply chunks_size in H. change (held (bc_new alg)) with 0%nat in H. lia. Qed.

Theorem body_size : forall alg chunks out, canonicalize_body alg chunks = Val out -> (length out <= length (concat chunks) + 2)%nat.
Proof.
  intros alg chunks out H. unfold canonicalize_body in H.
  destruct (canonicalize_chunks (bc_new alg) chunks) as [(o, bc)|] eqn:C; [|discriminate H]. cbn [bind] in H.
  destruct (bc_finish bc) as [f|] eqn:F; [|discriminate H]. cbn [bind] in H. injection H as <-.
  apply chunks_size in C. apply finish_size in F. change (held (bc_new alg)) with 0%nat in C. rewrite app_length. lia.
Qed.

Lemma chunks_app : forall a b bc, canonicalize_chunks bc (a ++ b) =
  (let! (out, bc1) := canonicalize_chunks bc a in let! (out', bc2) := canonicalize_chunks bc1 b in Val (out ++ out', bc2)).
Proof.
  induction a as [|c a IH]; intros b bc; cbn [app canonicalize_chunks bind].
  - destruct (canonicalize_chunks bc b) as [(o, bc2)|]; reflexivity.
  - destruct (canonicalize_chunk bc c) as [(o, bc1)|]; [|reflexivity]. cbn [bind]. rewrite IH.
    destruct (canonicalize_chunks bc1 a) as [(o1, bc2)|]; [|reflexivity]. cbn [bind].
    destruct (canonicalize_chunks bc2 b) as [(o2, bc3)|]; [|reflexivity]. cbn [bind]. rewrite app_assoc. reflexivity.
Qed.

(** what has been written stands, whatever follows *)
Theorem written_stands : forall alg chunks out bc more final, canonicalize_chunks (bc_new alg) chunks = Val (out, bc) ->
  canonicalize_body alg (chunks ++ more) = Val final -> exists rest, final = out ++ rest.
Proof.
  intros alg chunks out bc more final H F. unfold canonicalize_body in F. rewrite chunks_app, H in F. cbn [bind] in F.
  destruct (canonicalize_chunks bc more) as [(o, bc2)|]; [|discriminate F]. cbn [bind] in F.
  destruct (bc_finish bc2) as [f|]; [|discriminate F]. cbn [bind] in F. injection F as <-. exists (o ++ f). rewrite app_assoc. reflexivity.
Qed.

(** empty lines are held back, all of them *)
Lemma empty_lines_run : forall n bc, bc_kind bc = Simple -> bc_state bc = SInit \/ bc_state bc = SCrLf -> bc_blank_line bc = true ->
  exists bc', canonicalize_chunk bc (crlfs n) = Val ([], bc') /\ bc_kind bc' = Simple /\ (bc_state bc' = SInit \/ bc_state bc' = SCrLf)
    /\ bc_empty_lines bc' = (bc_empty_lines bc + n)%nat.
Proof.
  induction n as [|n IH]; intros [k st bl el] K S B; cbn [bc_kind bc_state bc_blank_line] in *; subst k bl.
  - eexists. split; [reflexivity|]. cbn. auto.
  - destruct (IH (mkBodyCanon Simple SCrLf true (Datatypes.S el)) eq_refl (or_intror eq_refl) eq_refl) as (bc' & R & K' & S' & E').
    exists bc'. split; [|split; [exact K'|split; [exact S'|rewrite E'; cbn; lia]]].
    transitivity (canonicalize_chunk (mkBodyCanon Simple SCrLf true (Datatypes.S el)) (crlfs n)); [|exact R].
    destruct S as [->| ->]; cbn; rewrite N.eqb_refl; cbn; rewrite N.eqb_refl; cbn; rewrite R; reflexivity.
Qed.

Theorem burst : forall n, exists bc out bc', canonicalize_chunks (bc_new Simple) [crlfs n] = Val ([], bc)
  /\ canonicalize_chunk bc [97] = Val (out, bc') /\ length out = (2 * n + 1)%nat.
Proof.
  intros n. destruct (empty_lines_run n (bc_new Simple) eq_refl (or_introl eq_refl) eq_refl) as (bc & R & K & S & E).
  exists bc, (crlfs n ++ [97]). destruct bc as [k st bl el]. cbn [bc_kind bc_state bc_empty_lines bc_new] in *. subst k.
  eexists. split; [cbn [canonicalize_chunks]; rewrite R; reflexivity|]. split; [|rewrite app_length, crlfs_length; cbn [length]; lia].
  cbn [canonicalize_chunk]. unfold canon_step. cbn [bc_kind]. unfold step_simple. cbn [bc_state].
  rewrite Nat.add_0_l in E. subst el. destruct S as [->| ->]; cbn; change (97 =? CR) with false; cbn; rewrite ?app_nil_r; reflexivity.
Qed.

(** ** Header *)

Lemma lower_length : forall s, length (lower s) = length s.
Proof. intros s. apply map_length. Qed.

Lemma words_size : forall s cur, (length (unwords (words_from cur s)) <= length cur + length s)%nat.
Proof.
  induction s as [|c s IH]; intros cur; cbn [words_from].
  - destruct cur; cbn [unwords length]; lia.
  - destruct (white c).
    + destruct cur as [|x cur].
      * specialize (IH []). cbn [length] in *. lia.
      * specialize (IH []). destruct (words_from [] s) as [|w ws] eqn:E.
        -- cbn [unwords length] in *. lia.
        -- rewrite unwords_cons by discriminate. rewrite !app_length. cbn [length] in *. lia.
    + specialize (IH (cur ++ [c])). rewrite app_length in IH. cbn [length] in *. lia.
Qed.

Theorem header_size : forall alg name value, valid_name name ->
  (length (canonicalize_header alg name value) <= length name + length value + 1)%nat.
Proof.
  intros alg name value V. rewrite canonicalize_header_spec by exact V. destruct alg; cbn [canonical_field fst snd].
  - rewrite !app_length. cbn [length]. lia.
  - unfold rfc_relaxed_header. rewrite !app_length, lower_length. cbn [length]. pose proof (words_size value []). unfold words. cbn [length] in *. lia.
Qed.

Definition field_size (f : HeaderField) : nat := (length (fst f) + length (snd f) + 3)%nat.

(** the room left: the sizes of the fields not yet taken *)
Fixpoint room (i : nat) (rh : list HeaderField) (p : list nat) : nat :=
  match rh with [] => 0 | f :: rh' => (if mem_nat i p then 0 else field_size f) + room (S i) rh' p end%nat.

Lemma room_above : forall rh i k p, (k < i)%nat -> room i rh (k :: p) = room i rh p.
Proof.
  induction rh as [|f rh IH]; intros i k p L; [reflexivity|]. cbn [room]. rewrite IH by lia. cbn [mem_nat existsb].
  replace (Nat.eqb i k) with false by (symmetry; apply Nat.eqb_neq; lia). reflexivity.
Qed.

Lemma room_taken : forall rh i k p f, nth_error rh k = Some f -> mem_nat (i + k) p = false ->
  (room i rh ((i + k) :: p) + field_size f = room i rh p)%nat.
Proof.
  induction rh as [|g rh IH]; intros i k p f H M; [destruct k; discriminate H|]. destruct k as [|k]; cbn [nth_error] in H.
  - injection H as <-. rewrite Nat.add_0_r in *. cbn [room]. rewrite room_above by lia. rewrite M. cbn [mem_nat existsb].
    rewrite Nat.eqb_refl. cbn [orb]. lia.
  - replace (i + S k)%nat with (S i + k)%nat in * by lia. specialize (IH (S i) k p f H M). cbn [room].
    replace (mem_nat i (S i + k :: p)%nat) with (mem_nat i p)
      by (cbn [mem_nat existsb]; replace (Nat.eqb i (S i + k)) with false by (symmetry; apply Nat.eqb_neq; lia); reflexivity).
    lia.
Qed.

Lemma loop_size : forall alg names rh p, Forall (fun f => valid_name (fst f)) rh ->
  (length (canon_headers_loop alg rh p names) <= room 0 rh p)%nat.
Proof.
  intros alg names. induction names as [|n names IH]; intros rh p V; cbn [canon_headers_loop]; [cbn; lia|].
  pose proof (find_unprocessed_spec rh 0 p n) as S. destruct (find_unprocessed 0 rh p n) as [(i, (nm, v))|]; [|apply IH, V].
  destruct S as (k & -> & N & M & _). pose proof (room_taken rh 0 k p _ N M) as R. specialize (IH rh ((0 + k)%nat :: p) V).
  assert (valid_name nm) as Vn by (rewrite Forall_forall in V; exact (V _ (nth_error_In _ _ N))).
  pose proof (header_size alg nm v Vn) as H. rewrite !app_length. unfold field_size in R. cbn [fst snd] in R. cbn [length CRLF]. lia.
Qed.

Lemma room_start : forall rh i, room i rh [] = list_sum (map field_size rh).
Proof. induction rh as [|f rh IH]; intros i; [reflexivity|]. cbn [room mem_nat existsb map list_sum fold_right]. rewrite IH. reflexivity. Qed.

Theorem headers_size : forall alg headers names, Forall (fun f => valid_name (fst f)) headers ->
  (length (canonicalize_headers alg headers names) <= list_sum (map field_size headers))%nat.
Proof.
  intros alg headers names V. unfold canonicalize_headers. etransitivity; [apply loop_size; apply Forall_rev; exact V|].
  rewrite room_start, map_rev. clear. induction headers as [|f l IH]; [reflexivity|]. cbn [map rev]. rewrite list_sum_app. cbn [list_sum fold_right]. unfold list_sum in *. cbn [fold_right]. lia.
Qed.
