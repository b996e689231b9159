(** Proofs about [Debug] texts: what the library reads and returns. *)

From Coq Require Import String List.
From Verif Require Import Lib Base Utf8 Base64 Canon BodyHash TagList Domain Signature KeyRecord Crypto Format Verify Report Debug
  SpecText SpecHeader SpecTag SpecCanon SpecDomain SpecFormat SpecSig SpecSign SpecRecord SpecVerify SpecDebug Base64Proofs Utf8Proofs
  TagListProofs SigProofs RecordProofs VerifyProofs VerifyRun VerifyFacts DebugProofs DebugTrees DebugUnique.
Import ListNotations.
Open Scope N_scope.

(** ** Texts of tags are from the text *)

Definition both (P : char -> Prop) (p : str * str) : Prop := Forall P (fst p) /\ Forall P (snd p).

Lemma tag_spec_chars : forall P s n v, tag_spec_text s n v -> Forall P s -> both P (n, v).
Proof.
  intros P s n v H K. unfold both. cbn [fst snd]. destruct H; rewrite !Forall_app in K; (split; [tauto|]); [constructor|tauto].
Qed.
Lemma tag_list_chars : forall P s tags, tag_list_text s tags -> Forall P s -> Forall (both P) tags.
Proof.
  intros P s tags H. induction H; intros K.
  - constructor; [|constructor]. eapply tag_spec_chars; eassumption.
  - apply Forall_app in K as [K _]. constructor; [|constructor]. eapply tag_spec_chars; eassumption.
  - rewrite !Forall_app in K. constructor; [|tauto]. eapply tag_spec_chars; [eassumption|tauto].
Qed.

Lemma get_chars : forall P tags n v, Forall (both P) (pairs_of tags) -> get n tags = Some v -> Forall P v.
Proof.
  intros P tags n v. unfold get. induction tags as [|t tags IH]; intros H E; cbn [tag_get] in E; [discriminate|].
  inv H. destruct (leqb _ _); [|auto]. injection E as <-. apply H2.
Qed.
Lemma ext_chars : forall P known tags, Forall (both P) (pairs_of tags) -> Forall (both P) (ext_tags known tags).
Proof.
  intros P known tags H. induction tags as [|t tags IH]; cbn [ext_tags]; [constructor|]. inv H.
  destruct (mem_str _ _); [auto|]. constructor; auto.
Qed.

Lemma hexdigit_lt : forall c v, hexdigit c v -> v < 16.
Proof. intros c v H. destruct H; lia. Qed.
Lemma qp_items_bytes : forall s bs, qp_items s bs -> Forall is_scalar s -> Forall is_byte bs.
Proof.
  induction 1; intros K.
  - constructor.
  - inv K. rewrite Forall_app in *. split; [|tauto]. rewrite <- (app_nil_r (utf8_char c)). apply (as_bytes_bytes [c]). auto.
  - apply Forall_inv_tail in K. rewrite Forall_app in K. destruct K as [_ K]. apply Forall_inv_tail in K.
    rewrite Forall_app in K. destruct K as [_ K]. apply Forall_inv_tail in K. rewrite Forall_app in K. destruct K as [_ K].
    constructor; [|auto]. apply hexdigit_lt in H0, H2. unfold is_byte. lia.
Qed.
Lemma qp_text_bytes : forall s bs, qp_text s bs -> Forall is_scalar s -> Forall is_byte bs.
Proof. intros s bs (f & s' & _ & -> & H) K. apply Forall_app in K as [_ K]. eapply qp_items_bytes; eauto. Qed.

Lemma bar_pieces : forall P l, Forall P (bar_joined l) -> Forall (Forall P) l.
Proof.
  intros P. induction l as [|p l IH]; intros H; [constructor|]. destruct l as [|q l]; [auto|].
  change (bar_joined (p :: q :: l)) with (p ++ [124] ++ bar_joined (q :: l)) in H. rewrite !Forall_app in H. constructor; tauto.
Qed.
Lemma copied_ok : forall t hs, copied_headers_text t hs -> Forall is_scalar t -> Forall field_ok hs.
Proof.
  intros t hs (pieces & _ & _ & -> & F) K. apply bar_pieces in K. induction F as [|p [n v] ps hs [A B] _ IH]; [constructor|].
  inv K. constructor; [|auto]. split; [exact A|]. apply qp_text_bytes in B; [|assumption]. rewrite !Forall_app in B. tauto.
Qed.

(** ** Domains *)

Lemma dotted_host : forall l, Forall dns_label l -> host (dotted l).
Proof.
  induction 1 as [|a l (_ & H & _) _ IH]; [constructor|].
  assert (host a) by (eapply Forall_impl; [|exact H]; unfold host_char; intros; tauto).
  destruct l as [|b l]; [assumption|]. change (dotted (a :: b :: l)) with (a ++ [46] ++ dotted (b :: l)).
  apply Forall_app. split; [assumption|]. constructor; [unfold host_char; tauto|assumption].
Qed.
Lemma ascii_lower_host : forall c, host_char (ascii_lower c) -> host_char c.
Proof. intros c. unfold host_char, letter_digit, ascii_lower, is_ascii_upper, in_range. destruct ((65 <=? c) && (c <=? 90)) eqn:E; lia. Qed.
Lemma host_lower : forall c, host_char c -> host_char (ascii_lower c).
Proof. intros c. unfold host_char, letter_digit, ascii_lower, is_ascii_upper, in_range. destruct ((65 <=? c) && (c <=? 90)) eqn:E; lia. Qed.

Lemma domain_host : forall idna d b, idna_keeps idna -> domain_text idna d b -> host d.
Proof.
  intros idna d b K [(a & A & (_ & init & final & -> & L & _)) _]. apply Forall_forall. intros c I.
  destruct (N.lt_ge_cases c 128) as [X|X]; [|unfold host_char; tauto].
  apply ascii_lower_host. assert (In (ascii_lower c) (lower d)) as I' by (apply in_map; exact I).
  assert (ascii_lower c < 128) as X' by (unfold ascii_lower, is_ascii_upper, in_range; destruct ((65 <=? c) && (c <=? 90)) eqn:Z; lia).
  destruct (K _ _ _ A I' X') as [Y|Y]; [unfold composable in Y; unfold host_char, letter_digit; lia|]. unfold lower in Y. apply in_map_iff in Y as (e & Y & J).
  apply dotted_host in L. unfold host in L. rewrite Forall_forall in L. apply L in J. rewrite <- Y.
  apply host_lower. exact J.
Qed.

(** ** Signatures and records *)

Lemma base64_text_bytes : forall t bs, base64_text t bs -> Forall is_byte bs.
Proof. intros t bs [H _]. exact H. Qed.

Lemma parsed_sig : forall pre idna s sig, idna_keeps idna -> Forall is_scalar s -> sig_from_str pre idna s = Val (Ok sig) -> sig_shown sig.
Proof.
  intros pre idna s sig K Sc H. apply sig_ok_iff in H as (tags & Tl & H). apply tag_list_ok in Tl as [Tl _].
  apply (tag_list_chars is_scalar) in Tl; [|assumption].
  destruct H as (_ & _ & (b & _ & B & _) & (bh & _ & Bh & _) & _ & (_ & D) & (h & _ & (_ & Hn) & _) & Id & _ & _ & (_ & Se) & _ & _ & Z & X & _).
  constructor.
  - eapply base64_text_bytes; eauto.
  - eapply base64_text_bytes; eauto.
  - eapply domain_host; eauto.
  - exact Hn.
  - intros i Ei. rewrite Ei in Id. unfold optional in Id. destruct (get "i" tags) as [t|]; [|contradiction].
    destruct Id as (x & _ & _ & _ & Dt & L). split; [|eapply domain_host; eauto].
    intros l El. rewrite El in L. destruct L as [_ [_ L]]. exact L.
  - eapply domain_host; eauto.
  - destruct (get "z" tags) as [t|] eqn:G; [|rewrite Z; constructor]. eapply copied_ok; [exact Z|]. eapply get_chars; eauto.
  - rewrite X. apply ext_chars. exact Tl.
Qed.

Lemma parsed_sig_error : forall pre idna s e, Forall is_scalar s -> sig_from_str pre idna s = Val (Err e) -> sig_error_shown e.
Proof.
  intros pre idna s e Sc H. apply sig_error_exact in H as [[_ ->]|(tags & k & Tl & _ & _ & ->)]; [constructor; discriminate|].
  apply (tag_list_chars is_scalar) in Tl; [|assumption]. constructor; cbn; intros; eapply get_chars; eauto.
Qed.

Lemma lossy_scalar : forall bs s, lossy_text bs s -> Forall is_scalar s.
Proof. induction 1; constructor; auto. unfold is_scalar. lia. Qed.

Lemma parsed_record : forall pre s r, Forall is_scalar s -> record_from_str pre s = Val (Ok r) -> record_shown r.
Proof.
  intros pre s r Sc H. apply record_ok_iff in H as (tags & Tl & H). apply tag_list_ok in Tl as [Tl _].
  apply (tag_list_chars is_scalar) in Tl; [|assumption].
  destruct H as (_ & _ & _ & Nt & (p & _ & B) & _ & _ & X). constructor.
  - intros t Et. rewrite Et in Nt. unfold optional in Nt. destruct (get "n" tags); [|contradiction].
    destruct Nt as (bs & _ & L). eapply lossy_scalar; eauto.
  - eapply base64_text_bytes; eauto.
  - rewrite X. apply ext_chars. exact Tl.
Qed.

(** ** Results *)

Definition plain_error (e : VerificationError) : Prop := forall x, e <> DkimSignatureFormat x.
Lemma plain_shown : forall e, plain_error e -> error_shown e.
Proof. intros e H x ->. destruct (H x). reflexivity. Qed.

Lemma read_shown : forall E value s r, idna_keeps (env_idna E) -> signature_read E value s r ->
  match r with Ok sig => sig_shown sig | Err e => sig_error_shown e end.
Proof.
  intros E value s r K H. destruct H as [s r Sc -> H|_].
  - destruct r; [eapply parsed_sig|eapply parsed_sig_error]; eauto.
  - constructor; discriminate.
Qed.

Lemma first_of_in : forall A (l : list (Prop * A)) o, first_of l o -> forall e, o = Some e -> In e (map snd l).
Proof. induction 1; intros e E; cbn [map snd]; [discriminate|injection E as ->; left; reflexivity|right; auto]. Qed.

Lemma signature_check_plain : forall E headers config now sig e,
  first_of (signature_checks E headers config now sig) (Some e) -> plain_error e.
Proof.
  intros E headers config now sig e H x ->. apply first_of_in with (e := DkimSignatureFormat x) in H; [|reflexivity].
  cbn in H. intuition discriminate.
Qed.
Lemma key_check_plain : forall E headers config sig name value r e,
  first_of (key_checks E headers config sig name value r) (Some e) -> plain_error e.
Proof.
  intros E headers config sig name value r e H x ->. apply first_of_in with (e := DkimSignatureFormat x) in H; [|reflexivity].
  cbn in H. intuition discriminate.
Qed.

Lemma record_text_scalar : forall txt o, record_text txt o -> forall s, o = Some s -> Forall is_scalar s.
Proof. intros txt o H s E. destruct H; [|discriminate..]. injection E as <-. assumption. Qed.

Lemma record_outcome_shown : forall E headers config sig name value txt r e, record_outcome E headers config sig name value txt r e ->
  (forall k, r = Some k -> record_shown k) /\ (forall x, e = Some x -> plain_error x).
Proof.
  intros E headers config sig name value txt r e H. destruct H as [H|s e T H|s r e T H F].
  - split; [discriminate|]. intros x [= <-] y. discriminate.
  - split; [discriminate|]. intros x [= <-] y. discriminate.
  - split.
    + intros k [= <-]. eapply parsed_record; [|exact H]. eapply record_text_scalar; eauto.
    + intros x ->. eapply key_check_plain; eauto.
Qed.
Lemma records_outcome_shown : forall E headers config sig name value txts r e, records_outcome E headers config sig name value txts r e ->
  (forall k, r = Some k -> record_shown k) /\ (forall x, e = Some x -> plain_error x).
Proof. intros E headers config sig name value txts r e H. induction H; eauto using record_outcome_shown. Qed.

Lemma verdict_shown : forall E answer headers config now body i name value r, idna_keeps (env_idna E) ->
  verdict E answer headers config now body i name value r -> result_shown r.
Proof.
  intros E answer headers config now body i name value r K H.
  destruct H as [s e H|s sig e H F|s sig p k e [H _] _ _ L|s sig p [H _] _ _|s sig p txts r e [H _] _ _ R|s sig p txts r [H _] _ _ R];
    apply read_shown in H; auto; constructor; cbn; try discriminate; try (intros x [= <-]; assumption).
  - intros x [= <-] y [= <-]. exact H.
  - intros x [= <-]. apply plain_shown. eapply signature_check_plain; eauto.
  - intros x [= <-]. apply plain_shown. destruct L; intros y; discriminate.
  - intros x [= <-]. apply plain_shown. intros y; discriminate.
  - intros x [= <-]. apply plain_shown. eapply records_outcome_shown; eauto.
  - intros x ->. eapply records_outcome_shown; eauto.
  - intros x Ex. apply plain_shown. unfold body_status in Ex. intros y ->. repeat dmatch_hyp Ex; discriminate.
  - intros x ->. eapply records_outcome_shown; eauto.
Qed.

Lemma results_shown : forall E w headers config chunks rs, idna_keeps (env_idna E) -> world_ok w -> header_fields headers ->
  verify_message E w headers config chunks = Val (Some rs) -> Forall result_shown rs.
Proof.
  intros E w headers config chunks rs K W H V.
  destruct (verify_message_cases E w headers config chunks W H) as [[_ X]|(N & _)]; [congruence|].
  destruct (evaluation_exists E w headers config chunks W H N) as (answer & rs' & Ev).
  assert (rs' = rs) as -> by (destruct Ev as (_ & _ & X & _); congruence).
  apply evaluation_verdicts in Ev. clear V N. induction Ev as [|f r fs rs X _ IH]; constructor; [eapply verdict_shown; eauto|]. apply IH.
Qed.

(** ** The indented form has no control characters but line breaks *)

Notation lines_only := printable_lines.
Lemma lines_only_app : forall a b, lines_only (a ++ b) <-> lines_only a /\ lines_only b.
Proof. intros. apply Forall_app. Qed.
Lemma lines_only_const : forall t, forallb (fun c => ((32 <=? c) && negb (c =? 127)) || (c =? 10)) t = true -> lines_only t.
Proof. intros t H. apply Forall_forall. intros c I. rewrite forallb_forall in H. specialize (H c I). lia. Qed.
Lemma lines_only_one : forall t, one_line t -> lines_only t.
Proof. intros t H. eapply Forall_impl; [|exact H]. intros c X. left. exact X. Qed.
Lemma lines_only_pad : forall t b, lines_only t -> lines_only (pad b t).
Proof.
  intros t b H. revert b. induction H as [|c t Hc _ IH]; intros b; [constructor|]. cbn [pad]. apply lines_only_app.
  split; [destruct b; apply lines_only_const; reflexivity|]. constructor; [exact Hc|apply IH].
Qed.
Lemma lines_only_flat : forall A (f : A -> str) l, Forall (fun a => lines_only (f a)) l -> lines_only (flat_map f l).
Proof. intros A f l H. apply Forall_flat_map. exact H. Qed.

Ltac consts := try (apply lines_only_const; reflexivity).
Lemma pretty_lines : forall t, lined t -> lines_only (pretty t).
Proof.
  induction t as [s|name l IH|name l IH|l IH] using tree_induction; unfold lined; cbn [texts]; intros H.
  - inv H. apply lines_only_one. assumption.
  - inv H. cbn [pretty]. destruct (is_nil l); [apply lines_only_one; assumption|].
    rewrite !lines_only_app. split; [apply lines_only_one; assumption|]. split; [consts|]. split; [consts|]. split; [|consts].
    apply lines_only_flat. rewrite Forall_flat_map in H3. rewrite Forall_forall in *. intros v I. apply lines_only_pad.
    rewrite !lines_only_app. split; [apply IH; auto; apply H3; assumption|]. split; consts.
  - inv H. cbn [pretty]. destruct (is_nil l); [apply lines_only_one; assumption|].
    rewrite !lines_only_app. split; [apply lines_only_one; assumption|]. split; [consts|]. split; [consts|]. split; [|consts].
    apply lines_only_flat. rewrite Forall_flat_map in H3. rewrite Forall_forall in *. intros [n v] I. apply lines_only_pad.
    specialize (H3 _ I). inv H3. specialize (IH _ I). cbn [snd] in IH.
    rewrite !lines_only_app. split; [apply lines_only_one; assumption|]. split; [consts|]. split; [apply IH; assumption|]. split; consts.
  - cbn [pretty]. destruct (is_nil l); [consts|]. rewrite !lines_only_app. split; [consts|]. split; [consts|]. split; [|consts].
    apply lines_only_flat. rewrite Forall_flat_map in H. rewrite Forall_forall in *. intros v I. apply lines_only_pad.
    rewrite !lines_only_app. split; [apply IH; auto; apply H; assumption|]. split; consts.
Qed.
