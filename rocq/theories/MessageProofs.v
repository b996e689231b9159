(** Lemmas on messages as text and with several signatures. *)

From Coq Require Import String List Permutation.
From Verif Require Import Base Utf8 Canon BodyHash Header Domain Signature KeyRecord Crypto TagList Format Sign Verify
  SpecText SpecCanon SpecHash SpecHeader SpecTag SpecDomain SpecSig SpecRecord SpecFormat SpecSign SpecOutput SpecVerify SpecEnd SpecMessage
  Utf8Proofs HeaderProofs HeaderCanonProofs SigProofs OutputProofs OutputParse WidthProofs OutputChars VerifyProofs VerifyKeys VerifyRun VerifyFacts EndProofs Lib.
Import ListNotations.
Open Scope N_scope.

(** a field written on top *)
Lemma lines_top : forall eol ls ls' s, eol = [10] \/ eol = [13; 10] -> lines_text ls' s ->
  lines_text (ls ++ ls') (flat_map (fun l => l ++ eol) ls ++ s).
Proof.
  intros eol ls ls' s He H. induction ls as [|l ls IH]; [exact H|]. cbn [app flat_map]. rewrite <- !app_assoc. apply lt_cons; assumption.
Qed.

Lemma written_top : forall n v s hs, field_name n -> field_body (as_bytes v) -> Forall is_scalar v ->
  header_fields_from_str s = Some hs ->
  header_fields_from_str (n ++ [58] ++ v ++ [13; 10] ++ s) = Some ((n, as_bytes v) :: hs)
  /\ header_fields_from_str (n ++ [58] ++ without_cr v ++ [10] ++ s) = Some ((n, as_bytes v) :: hs).
Proof.
  intros n v s hs N (f & m & E & P1 & P2) S H. apply from_str_spec in H as (fields & Ne & F & L & ->).
  destruct (utf8_split_crlf v f m E S) as (f' & m' & -> & <- & <-).
  rewrite Forall_map in P2. rewrite plain_bytes in P1.
  assert (Forall (fun l => plain l /\ folded l) m') as P3.
  { eapply Forall_impl; [|exact P2]. intros x Hx. cbv beta in Hx. rewrite plain_bytes, folded_bytes in Hx. exact Hx. }
  assert (Forall no_cr m') as P4.
  { eapply Forall_impl; [|exact P3]. intros x [Hx _]. apply plain_no_cr; exact Hx. }
  split; apply from_str_spec; exists ((n, f', m') :: fields); (split; [discriminate|]); (split; [constructor; [split; auto|exact F]|]);
    (split; [|cbn [map field_text_value]; rewrite E; reflexivity]); cbn [flat_map field_text_lines].
  - replace (n ++ [58] ++ unlines f' m' ++ [13; 10] ++ s) with (flat_map (fun l => l ++ [13; 10]) ((n ++ [58] ++ f') :: m') ++ s).
    2: { rewrite (app_assoc (unlines f' m')), unlines_eol. cbn [flat_map]. rewrite <- !app_assoc. reflexivity. }
    apply lines_top; [auto|exact L].
  - replace (n ++ [58] ++ without_cr (unlines f' m') ++ [10] ++ s) with (flat_map (fun l => l ++ [10]) ((n ++ [58] ++ f') :: m') ++ s).
    2: { rewrite (app_assoc (without_cr _)), unlines_eol_lf by (auto using plain_no_cr). cbn [flat_map]. rewrite <- !app_assoc. reflexivity. }
    apply lines_top; [auto|exact L].
Qed.

Section WithEnv.
Variable E : Env.

Lemma readable_field : forall o, idna_ok (env_idna E) -> signed_somehow E o ->
  field_name (so_header_name o) /\ field_body (as_bytes (so_header_value o)) /\ Forall is_scalar (so_header_value o).
Proof.
  intros o IO (headers & chunks & clock & j & r & H & H1 & H2 & H3 & H4).
  destruct (signed_output_of _ _ _ _ _ _ _ H) as (pre & post & n & b64 & O).
  destruct (output_field E _ _ _ _ _ _ _ _ _ _ _ IO O) as (_ & B & F1 & F2 & _).
  split; [exact F1|]. split; [exact F2|]. exact (output_unicode _ _ _ _ _ _ _ _ _ _ _ _ IO O H1 H2 H3 H4).
Qed.

Lemma text_on_top : forall outs s hs, idna_ok (env_idna E) -> Forall (signed_somehow E) outs ->
  header_fields_from_str s = Some hs ->
  header_fields_from_str (flat_map (fun o => format_header o ++ [13; 10]) outs ++ s) = Some (map signature_field outs ++ hs)
  /\ header_fields_from_str (flat_map (fun o => without_cr (format_header o) ++ [10]) outs ++ s) = Some (map signature_field outs ++ hs).
Proof.
  intros outs s hs IO F H. induction F as [|o outs O F [IH1 IH2]]; [split; exact H|].
  destruct (readable_field o IO O) as (F1 & F2 & F3). cbn [flat_map map app]. unfold format_header at 1 3.
  assert (without_cr (so_header_name o ++ [58]) = so_header_name o ++ [58]) as X.
  { apply without_cr_id. intros I. apply in_app_or in I as [I|[I|[]]]; [|discriminate I]. destruct F1 as [_ F1]. rewrite Forall_forall in F1.
    apply F1 in I. unfold ftext in I. lia. }
  split.
  - pose proof (proj1 (written_top _ _ _ _ F1 F2 F3 IH1)) as Y. rewrite <- !app_assoc. exact Y.
  - pose proof (proj2 (written_top _ _ _ _ F1 F2 F3 IH2)) as Y. rewrite (app_assoc (so_header_name o)), without_cr_app, X, <- !app_assoc. exact Y.
Qed.

(** ** Several signatures *)

Lemma fields_top : forall k l h, Forall (fun f : HeaderField => same_name (fst f) (lit "DKIM-Signature")) l ->
  signature_fields k (l ++ h) = combine (seq k (length l)) l ++ signature_fields (k + length l) h.
Proof.
  intros k l h H. revert k. induction H as [|f l X H IH]; intros k; cbn [app length seq combine signature_fields].
  - rewrite Nat.add_0_r. reflexivity.
  - apply same_nameb_iff in X. rewrite X, IH. cbn [app]. replace (S k + length l)%nat with (k + S (length l))%nat by lia. reflexivity.
Qed.

Lemma examined_top : forall l h k f, Forall (fun f : HeaderField => same_name (fst f) (lit "DKIM-Signature")) l -> (length l <= 10)%nat ->
  nth_error l k = Some f -> nth_error (examined default_config (l ++ h)) k = Some (k, f).
Proof.
  intros l h k f H L N. unfold examined. change (cf_max_signatures default_config) with 10%nat. rewrite fields_top by exact H.
  assert (k < length l)%nat as K by (apply nth_error_Some; congruence).
  assert (length (combine (seq 0 (length l)) l) = length l) as Lc by (rewrite combine_length, seq_length; lia).
  rewrite firstn_app, nth_error_app1 by (rewrite firstn_length; lia).
  rewrite firstn_all2 by lia.
  assert (forall a n, nth_error (combine (seq a (length l)) l) n = option_map (fun x => (a + n, x)%nat) (nth_error l n)) as C.
  { clear. induction l as [|x l IH]; intros a n; [destruct n; reflexivity|]. cbn [length seq combine]. destruct n as [|n]; cbn [nth_error option_map].
    - rewrite Nat.add_0_r. reflexivity.
    - rewrite IH. destruct (nth_error l n); cbn [option_map]; [|reflexivity]. replace (S a + n)%nat with (a + S n)%nat by lia. reflexivity. }
  rewrite C, N. reflexivity.
Qed.

Lemma auto_not_oversigned_all : forall headers names r l, signed_names E r headers names -> r_header_selection E r = Auto ->
  Forall (fun f : HeaderField => same_name (fst f) (lit "DKIM-Signature")) l -> not_oversigned names headers l.
Proof.
  intros headers names r l Nm Au H n f Hn Hf S. rewrite Forall_forall in H.
  exact (auto_not_oversigned E headers names r f Nm Au (H f Hf) n f Hn (or_introl eq_refl) S).
Qed.

Lemma fresh_is_readable : forall headers body w zone o, freshly_signed E headers body w zone o ->
  exists chunks clock j r, readable_output E headers chunks clock j r o.
Proof.
  intros headers body w zone o (d & s & alg & key & chunks & clock & j & Hd & Hs & Ha & H & _ & _ & T & _).
  exists chunks, clock, j, (request_new E d s alg key). apply fresh_readable; assumption.
Qed.

Lemma several_signatures : forall w headers outs chunks' zone, idna_ok (env_idna E) -> crypto_nonempty (env_crypto E) ->
  world_ok w -> steady (w_resolver w) zone ->
  outs <> [] -> (length outs <= 10)%nat -> Forall (freshly_signed E headers (concat chunks') w zone) outs ->
  exists rs rest, verify_message E w (map signature_field outs ++ headers) default_config chunks' = Val (Some (rs ++ rest))
    /\ length rs = length outs
    /\ forall k o, nth_error outs k = Some o -> exists r, nth_error rs k = Some r /\ vr_status r = Success /\ vr_index r = k
         /\ exists sig', vr_signature r = Some sig' /\ written_signature (env_idna E) default_format (so_signature o) sig'.
Proof.
  intros w headers outs chunks' zone IO NE W S Ne L F.
  set (top := map signature_field outs).
  assert (Forall (fun f : HeaderField => same_name (fst f) (lit "DKIM-Signature")) top) as Fn.
  { unfold top. apply Forall_map. eapply Forall_impl; [|exact F]. intros o O. apply fresh_is_readable in O as (c & cl & j & r & O).
    apply (field_named E _ _ _ _ _ _ IO O). }
  assert (header_fields headers) as Hh.
  { destruct F as [|o outs (d & s & alg & key & chunks & clock & j & Hd & Hs & Ha & H & _)]; [congruence|]. apply (proj1 (proj2 H)). }
  assert (header_fields (top ++ headers)) as Hf.
  { apply Forall_app. split; [|exact Hh]. unfold top. apply Forall_map. eapply Forall_impl; [|exact F]. intros o O.
    apply fresh_is_readable in O as (c & cl & j & r & O). destruct (field_named E _ _ _ _ _ _ IO O) as [_ X]. inversion X. assumption. }
  destruct (verify_message_cases E w _ default_config chunks' W Hf) as [[X _]|(_ & rs & V & _)].
  { exfalso. destruct outs as [|o outs]; [congruence|]. pose proof (examined_top top headers 0 (signature_field o) Fn) as Y.
    unfold top in Y. rewrite map_length in Y. specialize (Y L eq_refl). fold top in Y. rewrite X in Y. discriminate. }
  pose proof (steady_evaluation _ _ _ _ _ _ _ W Hf S V) as Ev.
  pose proof (evaluation_verdicts _ _ _ _ _ _ _ Ev) as F2.
  assert (length (examined default_config (top ++ headers)) = length rs) as Len by (clear - F2; induction F2; cbn; congruence).
  assert (forall k o, nth_error outs k = Some o -> exists r, nth_error rs k = Some r /\ vr_status r = Success /\ vr_index r = k
         /\ exists sig', vr_signature r = Some sig' /\ written_signature (env_idna E) default_format (so_signature o) sig') as R.
  { intros k o K. assert (nth_error top k = Some (signature_field o)) as K' by (unfold top; rewrite nth_error_map, K; reflexivity).
    pose proof (examined_top top headers k _ Fn ltac:(unfold top; rewrite map_length; exact L) K') as X.
    destruct (nth_error rs k) as [res|] eqn:Y.
    2: { exfalso. apply nth_error_None in Y. assert (k < length (examined default_config (top ++ headers)))%nat by (apply nth_error_Some; congruence). lia. }
    exists res. split; [reflexivity|]. apply nth_error_split in K' as (above & below & T & A).
    rewrite Forall_forall in F. destruct (F o (nth_error_In _ _ K)) as (d & s & alg & key & chunks & clock & j & Hd & Hs & Ha & H & B & P & T1 & T2).
    cbv zeta in *. set (r := request_new E d s alg key) in *. pose proof (fresh_readable E d s alg key _ _ _ _ _ Hd Hs Ha T1 H) as HR.
    destruct (request_parts E _ _ _ _ _ _ H) as (hashed & names & _ & Nm & Qn & _).
    rewrite T in *.
    destruct (end_to_end E w default_config headers above below chunks chunks' clock j r o (fun p => zone (key_name p)) rs res IO NE HR) as (R1 & R2 & R3).
    - rewrite Qn. exact (auto_not_oversigned_all _ _ _ _ Nm eq_refl Fn).
    - symmetry. exact B.
    - destruct (T2 (length above)) as (T3 & T4 & T5).
      apply (default_good E headers (above ++ signature_field o :: below) chunks clock j r o); try assumption; try reflexivity.
      + intros f Hi. rewrite Forall_forall in Fn. apply not_from. apply Fn. exact Hi.
      + intros l. unfold r in H. rewrite (fresh_length _ _ _ _ _ _ _ _ _ _ H). discriminate.
      + exact (fresh_in_time E d s alg key (clock j) _ T3 T4 T5).
    - intros Z. discriminate Z.
    - exact P.
    - exact Ev.
    - exists k. rewrite A. split; [exact X|exact Y].
    - rewrite R2, A. auto. }
  exists (firstn (length outs) rs), (skipn (length outs) rs). rewrite firstn_skipn. split; [exact V|].
  assert (length outs <= length rs)%nat as LL.
  { destruct (Nat.le_gt_cases (length outs) (length rs)) as [|G]; [assumption|]. exfalso.
    destruct (nth_error outs (length rs)) as [o|] eqn:K; [|apply nth_error_None in K; lia].
    destruct (R _ _ K) as (r & Y & _). assert (length rs < length rs)%nat by (apply nth_error_Some; congruence). lia. }
  split; [rewrite firstn_length; lia|]. intros k o K. destruct (R k o K) as (r & R1 & R2). exists r. split; [|exact R2].
  assert (k < length outs)%nat by (apply nth_error_Some; congruence). rewrite <- (firstn_skipn (length outs) rs), nth_error_app1 in R1 by (rewrite firstn_length; lia). exact R1.
Qed.

Lemma signed_text : forall w text headers outs chunks zone, idna_ok (env_idna E) -> crypto_nonempty (env_crypto E) ->
  world_ok w -> steady (w_resolver w) zone ->
  outs <> [] -> (length outs <= 10)%nat -> header_fields_from_str text = Some headers ->
  Forall (freshly_signed E headers (concat chunks) w zone) outs ->
  exists headers' rs, header_fields_from_str (flat_map (fun o => format_header o ++ [13; 10]) outs ++ text) = Some headers'
    /\ verify_message E w headers' default_config chunks = Val (Some rs)
    /\ Forall (fun r => vr_status r = Success) (firstn (length outs) rs) /\ (length outs <= length rs)%nat.
Proof.
  intros w text headers outs chunks zone IO NE W S Ne L T F.
  destruct (several_signatures w headers outs chunks zone IO NE W S Ne L F) as (rs & rest & V & Len & R).
  exists (map signature_field outs ++ headers), (rs ++ rest). split.
  - apply text_on_top; [exact IO| |exact T]. eapply Forall_impl; [|exact F]. intros o O. apply fresh_is_readable in O as (c & cl & j & r & H & Q & _ & _ & X).
    destruct (rr_scalar _ _ _ Q) as (R1 & R2 & R3). exists headers, c, cl, j, r. auto.
  - split; [exact V|]. split; [|rewrite app_length; lia]. rewrite <- Len, firstn_app, firstn_all, Nat.sub_diag, app_nil_r.
    apply Forall_forall. intros r Hr. apply In_nth_error in Hr as (k & K).
    destruct (nth_error outs k) as [o|] eqn:O.
    + destruct (R k o O) as (r' & R1 & R2 & _). congruence.
    + apply nth_error_None in O. assert (k < length rs)%nat by (apply nth_error_Some; congruence). lia.
Qed.
End WithEnv.
