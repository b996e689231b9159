(** Proofs on the header fields that matter to signing, and on copied header fields. *)

From Coq Require Import String List Permutation.
From Verif Require Import Base Utf8 Canon BodyHash Header Domain Signature KeyRecord Crypto TagList Format Sign Verify
  SpecText SpecCanon SpecHash SpecHeader SpecTag SpecDomain SpecSig SpecRecord SpecFormat SpecSign SpecOutput SpecVerify SpecEnd SpecCopied
  HeaderCanonProofs SignProofs RequestProofs OutputProofs OutputParse OutputChars WidthProofs VerifyProofs VerifyKeys VerifyRun VerifyFacts EndProofs Lib.
Import ListNotations.
Open Scope N_scope.

Lemma filter_selected : forall A (P : A -> Prop) (q : A -> bool) l l', selected P l l' ->
  (forall x, In x l -> q x = true -> P x) -> filter q l = filter q l'.
Proof.
  intros A P q l l' S. induction S as [|x l l' Hx S IH|x l l' Hx S IH]; intros H; [reflexivity| |].
  - cbn [filter]. rewrite IH by (intros; apply H; [right|]; assumption). reflexivity.
  - cbn [filter]. destruct (q x) eqn:Q; [destruct (Hx (H x (or_introl eq_refl) Q))|].
    apply IH. intros; apply H; [right|]; assumption.
Qed.

Lemma selected_in : forall A (P : A -> Prop) l l' x, selected P l l' -> In x l' -> In x l /\ P x.
Proof.
  intros A P l l' x S. induction S as [|y l l' Hy S IH|y l l' Hy S IH]; intros H; [destruct H| |].
  - destruct H as [<-|H]; [split; [left; reflexivity|exact Hy]|]. destruct (IH H). split; [right|]; assumption.
  - destruct (IH H). split; [right|]; assumption.
Qed.

Lemma header_valid : forall h, header_fields h -> Forall (fun f => valid_name (fst f)) h.
Proof.
  intros h Hh. eapply Forall_impl; [|exact Hh]. intros f [X _]. destruct X as [X1 X2]. split; [exact X1|].
  eapply Forall_impl; [|exact X2]. unfold ftext. intros; lia.
Qed.

Lemma existsb_filter : forall A (q : A -> bool) l, existsb q l = negb (is_nil (filter q l)).
Proof. induction l as [|x l IH]; [reflexivity|]. cbn [existsb filter]. destruct (q x); [reflexivity|exact IH]. Qed.

(** what the code computes from two headers that agree in the fields of interest *)
Lemma canonical_selected : forall alg (P : HeaderField -> Prop) h1 h2 hs names, header_fields h1 -> header_fields h2 ->
  selected P h1 hs -> selected P h2 hs -> (forall f n, In n names -> same_name (fst f) n -> P f) ->
  canonicalize_headers alg h1 names = canonicalize_headers alg h2 names.
Proof.
  intros alg P h1 h2 hs names F1 F2 S1 S2 H. apply headers_agree; try (apply header_valid; assumption).
  intros n Hn. f_equal. rewrite !filter_rev'. f_equal.
  assert (forall f : HeaderField, same_nameb (fst f) n = true -> P f) as X by (intros f Hf; apply (H f n Hn), same_nameb_iff, Hf).
  rewrite (filter_selected _ _ _ _ _ S1), (filter_selected _ _ _ _ _ S2); auto.
Qed.

Section WithEnv.
Variable E : Env.
Notation C := (env_crypto E).
Notation idna := (env_idna E).

Lemma signed_default : forall n, existsb (name_eqb n) default_signed_headers = true <-> In (lower n) signed_by_default.
Proof.
  intros n. change signed_by_default with (map lower default_signed_headers). rewrite existsb_exists, in_map_iff. split.
  - intros (m & M1 & M2). exists m. split; [|exact M1]. rewrite name_eqb_same in M2. apply same_nameb_iff in M2. symmetry. exact M2.
  - intros (m & M1 & M2). exists m. split; [exact M2|]. rewrite name_eqb_same. apply same_nameb_iff. symmetry. exact M1.
Qed.

Lemma select_signed_filter : forall headers,
  select_signed_headers headers = map fst (rev (filter (fun f => existsb (name_eqb (fst f)) default_signed_headers) headers)).
Proof.
  intros headers. unfold select_signed_headers, select_headers. rewrite <- filter_rev'. generalize (rev headers) as l.
  induction l as [|f l IH]; [reflexivity|]. cbn [map filter]. destruct (existsb _ _); cbn [map]; congruence.
Qed.

Lemma perform_selected : forall now r h1 h2 hs (P : HeaderField -> Prop) res, header_fields h1 -> header_fields h2 ->
  selected P h1 hs -> selected P h2 hs -> (forall f, signs E r (fst f) -> P f) ->
  perform_signing E now r h1 res = perform_signing E now r h2 res.
Proof.
  intros now r h1 h2 hs P res F1 F2 S1 S2 H. unfold perform_signing.
  destruct (bl_to_usize (env_usize_max E) (r_body_length E r)) as [bl|]; [|reflexivity].
  destruct (results_get res (request_key E bl r)) as [[[bh fl]|[]]|]; try reflexivity.
  destruct (match r_body_length E r with NoLimit => _ | _ => _ end) as [len|]; [|reflexivity].
  unfold signs in H. cbv zeta.
  assert (match r_header_selection E r with Auto => select_signed_headers h1 | Manual h => h end
          = match r_header_selection E r with Auto => select_signed_headers h2 | Manual h => h end) as X.
  { destruct (r_header_selection E r); [|reflexivity]. rewrite !select_signed_filter.
    rewrite (filter_selected _ _ _ _ _ S1), (filter_selected _ _ _ _ _ S2); [reflexivity| |]; intros f _ Hf; apply H, signed_default, Hf. }
  rewrite X. set (names := match r_header_selection E r with Auto => select_signed_headers h2 | Manual h => h end).
  assert (forall f n, In n names -> same_name (fst f) n -> P f) as Y.
  { intros f n Hn S. apply H. unfold names in Hn. destruct (r_header_selection E r) as [|ms]; [|exists n; auto].
    unfold select_signed_headers, select_headers in Hn. apply filter_In in Hn as [_ Hn]. apply signed_default in Hn.
    unfold same_name in S. rewrite S. exact Hn. }
  destruct (negb _); [reflexivity|]. destruct (existsb _ names); [reflexivity|].
  assert (prepare_copied_headers h1 names = prepare_copied_headers h2 names) as Z.
  { unfold prepare_copied_headers. rewrite (filter_selected _ _ _ _ _ S1), (filter_selected _ _ _ _ _ S2); [reflexivity| |];
      intros f _ Hf; apply existsb_exists in Hf as (n & N1 & N2); rewrite name_eqb_same in N2; apply (Y f n N1), same_nameb_iff, N2. }
  rewrite Z. unfold produce_signature, compute_data_hash. cbn [u_canonicalization u_signed_headers u_algorithm].
  rewrite (canonical_selected _ P h1 h2 hs names F1 F2 S1 S2 Y). reflexivity.
Qed.

Theorem signing_selected : forall order h1 h2 hs rs chunks clock, header_fields h1 -> header_fields h2 ->
  selected (of_interest E rs) h1 hs -> selected (of_interest E rs) h2 hs ->
  sign_message E order h1 rs chunks clock = sign_message E order h2 rs chunks clock.
Proof.
  intros order h1 h2 hs rs chunks clock F1 F2 S1 S2. unfold sign_message, prepare_signing.
  assert (existsb (fun f : HeaderField => name_eqb (fst f) (lit "From")) h1 = existsb (fun f : HeaderField => name_eqb (fst f) (lit "From")) h2) as X.
  { rewrite !existsb_filter, (filter_selected _ _ _ _ _ S1), (filter_selected _ _ _ _ _ S2); [reflexivity| |];
      intros f _ Hf; left; rewrite name_eqb_same in Hf; apply same_nameb_iff, Hf. }
  rewrite X. destruct (negb _); [reflexivity|]. destruct (prepare_loop E 0 (bhb_new false) rs) as [[b|e]|]; cbn [bind]; [|reflexivity..].
  destruct (is_nil rs); [reflexivity|]. cbn [bind].
  generalize (bhb_build b (order (bhb_registrations b))) as bh. induction chunks as [|c cs IH]; intros bh.
  - cbn [signer_chunks bind]. unfold sign. cbn [sg_body_hasher sg_tasks Sign.sg_headers].
    destruct (bh_finish (hash_fn C) bh) as [res|]; cbn [bind]; [|reflexivity].
    assert (forall ts i, incl ts rs -> sign_tasks E clock i h1 res ts = sign_tasks E clock i h2 res ts) as Y; [|rewrite Y by apply incl_refl; reflexivity].
    induction ts as [|t ts IH]; intros i Hi; [reflexivity|]. cbn [sign_tasks].
    rewrite (perform_selected (clock i) t h1 h2 hs (of_interest E rs) res); try assumption.
    + rewrite IH by (intros x Hx; apply Hi; right; exact Hx). reflexivity.
    + intros f Hf. right. exists t. split; [apply Hi; left; reflexivity|exact Hf].
  - cbn [signer_chunks]. unfold signer_chunk. cbn [sg_body_hasher sg_tasks Sign.sg_headers].
    destruct (hash_chunk bh c) as [[st bh']|]; cbn [bind]; [|reflexivity]. apply IH.
Qed.

(** ** Copied fields *)

Lemma selected_same : forall A (P Q : A -> Prop) l l', (forall x, In x l -> (P x <-> Q x)) -> selected P l l' -> selected Q l l'.
Proof.
  intros A P Q l l' H S. induction S as [|x l l' Hx S IH|x l l' Hx S IH]; [constructor| |].
  - apply sel_keep; [apply H; [left; reflexivity|exact Hx]|apply IH; intros; apply H; right; assumption].
  - apply sel_drop; [rewrite <- H; [exact Hx|left; reflexivity]|apply IH; intros; apply H; right; assumption].
Qed.

Lemma selected_all : forall A (P : A -> Prop) l, (forall x, In x l -> P x) -> selected P l l.
Proof. induction l as [|x l IH]; intros H; constructor; [apply H; left; reflexivity|apply IH; intros; apply H; right; assumption]. Qed.

Lemma signed_by_default_names : forall headers fs n,
  selected (fun f : HeaderField => In (lower (fst f)) signed_by_default) headers fs ->
  In n (rev (map fst fs)) -> In (lower n) signed_by_default.
Proof.
  intros headers fs n S H. apply In_rev in H. apply in_map_iff in H as (f & <- & Hf).
  exact (proj2 (selected_in _ _ _ _ _ S Hf)).
Qed.

(** the fields of the header named in the signature are those of interest *)
Lemma named_of_interest : forall r headers names f, signed_names E r headers names ->
  (exists n, In n names /\ same_name n (lit "From")) -> In f headers ->
  ((exists n, In n names /\ same_name (fst f) n) <-> of_interest E [r] f).
Proof.
  intros r headers names f Nm (n0 & N1 & N2) Hf. split.
  - intros (n & H1 & H2). right. exists r. split; [left; reflexivity|]. unfold signs. inversion Nm as [fs Au Sel X|ms Ma X]; subst.
    + rewrite Au. unfold same_name in H2. rewrite H2. eapply signed_by_default_names; eassumption.
    + rewrite Ma. exists n. auto.
  - intros [H|(r' & [<-|[]] & H)].
    + exists n0. split; [exact N1|]. unfold same_name in *. congruence.
    + unfold signs in H. inversion Nm as [fs Au Sel X|ms Ma X]; subst.
      * rewrite Au in H. exists (fst f). split; [|reflexivity]. apply -> in_rev. apply in_map.
        clear - Sel Hf H. induction Sel as [|x l l' Hx Sel IH|x l l' Hx Sel IH]; [destruct Hf| |].
        -- destruct Hf as [<-|Hf]; [left; reflexivity|right; auto].
        -- destruct Hf as [<-|Hf]; [contradiction|auto].
      * rewrite Ma in H. exact H.
Qed.

(** signing the copied fields gives the same *)
Lemma copied_output : forall headers chunks clock j r o, readable_output E headers chunks clock j r o -> r_copy_headers E r = true ->
  let copied := s_copied_headers (so_signature o) in
  selected (fun f => exists n, In n (s_signed_headers (so_signature o)) /\ same_name (fst f) n) headers copied
  /\ readable_output E copied chunks (fun _ => clock j) 0 r o.
Proof.
  intros headers chunks clock j r o (HO & HR & HT & HZ & HX) Cp copied.
  destruct (signed_output_of _ _ _ _ _ _ _ HO) as (pre & post & n & b64 & O).
  destruct (oo_u _ _ _ _ _ _ _ _ _ _ _ _ O) as (hashed & l & names & cp & _ & Nm & Hc & X).
  assert (s_signed_headers (so_signature o) = names /\ copied = cp) as [Y1 Y2].
  { unfold copied. destruct (so_signature o). unfold unsigned_part in X. cbn in *. injection X. intros. subst. auto. }
  rewrite Y1, Y2 in *. unfold copied_headers in Hc. rewrite Cp in Hc. split; [exact Hc|].
  destruct HO as (HC & Hh & order & rs & results & T & Ho & M & Hr & Hres).
  assert (In r rs) as Hin by (eapply nth_error_In; exact Hr).
  pose proof (requests_separate E order order headers rs chunks chunks clock results j r (Ok o) HC T Hh Ho Ho eq_refl M Hr Hres) as M1.
  destruct (run_each E _ _ _ _ _ _ T Ho M) as (A & _). apply checks_none in A as (HF & _ & A). rewrite Forall_forall in A, T.
  destruct (signed_names_from E r headers names (T _ Hin) (A _ Hin) HF Nm) as [Fr _].
  assert (header_fields cp) as Hcp.
  { apply Forall_forall. intros f Hf. unfold header_fields in Hh. rewrite Forall_forall in Hh. apply Hh, (selected_in _ _ _ _ _ Hc Hf). }
  assert (selected (of_interest E [r]) headers cp) as S1.
  { eapply selected_same; [|exact Hc]. intros f Hf. apply named_of_interest with (headers := headers); assumption. }
  assert (selected (of_interest E [r]) cp cp) as S2.
  { apply selected_all. intros f Hf. exact (proj2 (selected_in _ _ _ _ _ S1 Hf)). }
  rewrite (signing_selected order headers cp cp [r] chunks _ Hh Hcp S1 S2) in M1.
  split; [|split; [exact HR|split; [exact HT|split; [exact HZ|exact HX]]]].
  split; [exact HC|]. split; [exact Hcp|]. exists order, [r], [Ok o].
  split; [constructor; [apply T, Hin|constructor]|]. split; [exact Ho|]. split; [exact M1|]. split; reflexivity.
Qed.

(** a result for a field written by the signer reports the signature *)
Lemma output_reported : forall headers chunks clock j r o w above below config chunks' answer rs res, idna_ok idna -> crypto_nonempty C ->
  readable_output E headers chunks clock j r o ->
  let field := signature_field o in
  evaluation E w (above ++ field :: below) config chunks' answer rs ->
  result_for config (above ++ field :: below) rs (length above) (fst field) (snd field) res ->
  exists sig', vr_signature res = Some sig' /\ written_signature idna (r_format E r) (so_signature o) sig'.
Proof.
  intros headers chunks clock j r o w above below config chunks' answer rs res IO NE (HO & HR & HT & HZ & HX) field Ev RF.
  destruct (signed_output_of _ _ _ _ _ _ _ HO) as (pre & post & n & b64 & O).
  pose proof (output_scalar _ _ _ _ _ _ _ _ _ _ _ _ IO O HR HX) as Sc.
  destruct (output_parses E _ _ _ _ _ _ _ _ _ _ _ IO NE O HR HT HZ) as (sig' & P & W).
  destruct (evaluation_verdict _ _ _ _ _ _ _ _ _ _ _ Ev RF) as (V & _).
  assert (signature_read E (snd field) (so_header_value o) (Ok sig')) as SR by (apply sgr_text; [exact Sc|reflexivity|exact P]).
  exists sig'. split; [|exact W].
  assert (forall s0 r0, signature_read E (snd field) s0 r0 -> r0 = Ok sig') as D.
  { intros s0 r0 S0. exact (proj2 (signature_read_det _ _ _ _ _ _ S0 SR)). }
  destruct V as [s0 e S0|s0 sg e S0 _|s0 sg p k e [S0 _]|s0 sg p [S0 _]|s0 sg p txts r0 e [S0 _]|s0 sg p txts r0 [S0 _]];
    apply D in S0; first [discriminate|injection S0 as ->; reflexivity].
Qed.

Lemma occurrences_selected : forall (P : HeaderField -> Prop) n headers hs, selected P headers hs ->
  (occurrences n (map fst hs) <= occurrences n (map fst headers))%nat.
Proof.
  intros P n headers hs S. rewrite !occurrences_fields. induction S; cbn [filter]; [lia| |];
    destruct (same_nameb (fst x) n); cbn [length]; lia.
Qed.

Lemma occurrences_named : forall n names headers hs, In n names ->
  selected (fun f : HeaderField => exists n, In n names /\ same_name (fst f) n) headers hs ->
  occurrences n (map fst hs) = occurrences n (map fst headers).
Proof.
  intros n names headers hs Hn S. rewrite !occurrences_fields. f_equal. symmetry. eapply filter_selected; [exact S|].
  intros f _ Hf. exists n. split; [exact Hn|]. apply same_nameb_iff, Hf.
Qed.

Theorem recovered : forall w0 config0 above below chunks0 answer0 rs0 res0 headers chunks clock j r o, idna_ok idna -> crypto_nonempty C ->
  readable_output E headers chunks clock j r o -> r_copy_headers E r = true ->
  let field := signature_field o in
  let names := s_signed_headers (so_signature o) in
  evaluation E w0 (above ++ field :: below) config0 chunks0 answer0 rs0 ->
  result_for config0 (above ++ field :: below) rs0 (length above) (fst field) (snd field) res0 ->
  exists sig', vr_signature res0 = Some sig'
    /\ selected (fun f => exists n, In n names /\ same_name (fst f) n) headers (s_copied_headers sig')
    /\ forall w config chunks' answer rs res,
         not_oversigned names headers [field] -> concat chunks' = concat chunks ->
         signature_good E (field :: headers) config (w_clock w 0) (so_signature o) ->
         content_covered E r config (concat chunks) -> key_published E r config answer ->
         evaluation E w (field :: s_copied_headers sig') config chunks' answer rs ->
         result_for config (field :: s_copied_headers sig') rs 0 (fst field) (snd field) res ->
         vr_status res = Success.
Proof.
  intros w0 config0 above below chunks0 answer0 rs0 res0 headers chunks clock j r o IO NE R Cp field names Ev0 RF0.
  destruct (output_reported _ _ _ _ _ _ _ _ _ _ _ _ _ _ IO NE R Ev0 RF0) as (sig' & S' & W). exists sig'. split; [exact S'|].
  assert (s_copied_headers sig' = s_copied_headers (so_signature o)) as -> by (apply W).
  destruct (copied_output _ _ _ _ _ _ R Cp) as [Sel R']. split; [exact Sel|].
  intros w config chunks' answer rs res OV B G Cov K Ev RF.
  apply (end_to_end E w config _ [] [] chunks chunks' _ _ r o answer rs res IO NE R'); try assumption.
  - intros n f Hn Hf Sn. rewrite (occurrences_named n names headers) by assumption. exact (OV n f Hn Hf Sn).
  - destruct G as (G1 & G2 & G3). split; [exact G1|]. split; [|exact G3]. intros n Hn. etransitivity; [|exact (G2 n Hn)].
    cbn [app length map]. fold field. pose proof (occurrences_selected _ n _ _ Sel) as L. unfold occurrences in *. cbn [filter].
    destruct (same_nameb _ n); cbn [length]; lia.
Qed.

Theorem recovered_default : forall w headers chunks chunks' clock j r o answer rs, idna_ok idna -> crypto_nonempty C ->
  readable_output E headers chunks clock j r o -> r_copy_headers E r = true ->
  r_header_selection E r = Auto -> r_algorithm E r <> RsaSha1 ->
  (forall l, s_body_length (so_signature o) = Some l -> l <= env_usize_max E) ->
  in_time E r (clock j) default_config (w_clock w 0) ->
  concat chunks' = concat chunks ->
  key_published E r default_config answer ->
  evaluation E w (signature_field o :: s_copied_headers (so_signature o)) default_config chunks' answer rs ->
  exists res rest, rs = res :: rest /\ vr_index res = 0%nat /\ vr_status res = Success.
Proof.
  intros w headers chunks chunks' clock j r o answer rs IO NE R Cp Au Al L T B K Ev.
  destruct (copied_output _ _ _ _ _ _ R Cp) as [_ R']. exact (auto_end_to_end E _ _ _ _ _ _ _ _ _ _ IO NE R' Au Al L T B K Ev).
Qed.

End WithEnv.
