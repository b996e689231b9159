(** Proofs about signing. *)

From Coq Require Import String List.
From Verif Require Import Base Utf8 Canon BodyHash Header Parse TagList Domain Signature Crypto Format Sign
  SpecText SpecCanon SpecHash SpecHeader SpecTag SpecDomain SpecSig SpecFormat SpecSign
  HeaderCanonProofs BodyHashProofs HeaderProofs TagListProofs Base64Proofs DomainProofs SigProofs FormatProofs Lib.

(** ** Lists of checks *)

Lemma first_of_det : forall A (l : list (Prop * A)) a b, first_of l a -> first_of l b -> a = b.
Proof.
  intros A l a b H. revert b. induction H; intros c X; inversion X; subst; auto; contradiction.
Qed.

Lemma first_of_app_some : forall A (l m : list (Prop * A)) e, first_of l (Some e) -> first_of (l ++ m) (Some e).
Proof.
  intros A l m e H. remember (Some e) as r eqn:R. induction H; cbn [app]; [discriminate| |].
  - constructor. auto.
  - apply fo_next; auto.
Qed.

Lemma first_of_app_none : forall A (l m : list (Prop * A)) r, first_of l None -> first_of m r -> first_of (l ++ m) r.
Proof.
  intros A l m r H. remember None as n eqn:R. induction H; cbn [app]; intros X; [exact X|discriminate|].
  apply fo_next; auto.
Qed.

Lemma first_of_cons_none : forall A (P : Prop) a (l : list (Prop * A)), first_of ((P, a) :: l) None -> ~ P /\ first_of l None.
Proof. intros A P a l H. inversion H; subst. auto. Qed.

Lemma first_of_none_app : forall A (l m : list (Prop * A)), first_of (l ++ m) None -> first_of l None /\ first_of m None.
Proof.
  induction l as [|[P a] l IH]; cbn [app]; intros m H; [split; [constructor|exact H]|].
  inversion H as [| |? ? ? ? N X]; subst. apply IH in X as [X Y]. split; [apply fo_next; auto|auto].
Qed.

Lemma first_of_none_iff : forall A (l : list (Prop * A)), first_of l None <-> Forall (fun p => ~ fst p) l.
Proof.
  induction l as [|[P a] l IH]; split; intros H; try constructor; inversion H; subst; cbn [fst] in *; auto; tauto.
Qed.

(** a boolean check *)
Lemma first_of_step : forall A (P : Prop) a (l : list (Prop * A)) (b : bool) k (f : option A -> option A),
  (b = true <-> P) -> f (Some a) = Some a -> (exists v, k = Val v /\ first_of l (f v)) ->
  exists v, (if b then Val (Some a) else k) = Val v /\ first_of ((P, a) :: l) (f v).
Proof.
  intros A P a l [|] k f H Hf (v & K & X).
  - exists (Some a). split; [reflexivity|]. rewrite Hf. constructor. tauto.
  - exists v. split; [exact K|]. apply fo_next; [|exact X]. intros Z. apply H in Z. discriminate.
Qed.

Lemma selected_filter : forall A (P : A -> Prop) p l, (forall x, In x l -> (p x = true <-> P x)) ->
  selected P l (filter p l).
Proof.
  induction l as [|x l IH]; intros H; cbn [filter]; [constructor|].
  assert (selected P l (filter p l)) as X by (apply IH; intros; apply H; right; auto).
  pose proof (H x (or_introl eq_refl)) as Y. destruct (p x).
  - apply sel_keep; tauto.
  - apply sel_drop; [|auto]. intros Z. apply Y in Z. discriminate.
Qed.

Lemma selected_det : forall A (P : A -> Prop) l a b, selected P l a -> selected P l b -> a = b.
Proof. intros A P l a b H. revert b. induction H; intros c X; inversion X; subst; try contradiction; f_equal; auto. Qed.

Lemma existsb_from : forall ns,
  existsb (fun n => name_eqb n (lit "From")) ns = true <-> exists n, In n ns /\ same_name n (lit "From").
Proof.
  intros. rewrite existsb_exists. split; intros (n & H1 & H2); exists n; split; auto.
  - rewrite name_eqb_same in H2. apply leqb_eq in H2. exact H2.
  - rewrite name_eqb_same. apply leqb_eq. exact H2.
Qed.

Lemma existsb_from_none : forall ns,
  existsb (fun n => name_eqb n (lit "From")) ns = false <-> forall n, In n ns -> ~ same_name n (lit "From").
Proof.
  intros ns. split.
  - intros H n Hi Hn. assert (existsb (fun n => name_eqb n (lit "From")) ns = true); [|congruence].
    apply existsb_from. eauto.
  - intros H. destruct (existsb _ ns) eqn:X; auto. apply existsb_from in X as (n & X1 & X2). exfalso. exact (H n X1 X2).
Qed.

Lemma ext_tags_bad_spec : forall tags seen, ext_tags_bad seen tags = false <->
  NoDup (map fst tags) /\ (forall n, In n (map fst tags) -> ~ In n seen)
  /\ forall n v, In (n, v) tags -> tag_name_text n /\ (v = [] \/ tag_value_text v) /\ ~ In n written_tags.
Proof.
  induction tags as [|[n v] tags IH]; intros seen; cbn [ext_tags_bad map fst].
  - split; [|reflexivity]. intros _. split; [constructor|]. split; intros; contradiction.
  - change (is_output_tag n) with (mem_str n written_tags).
    destruct (mem_str n seen || negb (is_tag_name n) || negb (is_tag_value v) || mem_str n written_tags) eqn:B.
    + split; [discriminate|]. intros (H1 & H2 & H3). exfalso.
      destruct (H3 n v (or_introl eq_refl)) as (X1 & X2 & X3).
      apply is_tag_name_spec in X1. apply is_tag_value_spec in X2. apply mem_str_not_In in X3.
      pose proof (H2 n (or_introl eq_refl)) as X4. apply mem_str_not_In in X4.
      rewrite X1, X2, X3, X4 in B. discriminate.
    + rewrite !orb_false_iff, !negb_false_iff in B. destruct B as [[[B1 B2] B3] B4].
      apply mem_str_not_In in B1, B4. apply is_tag_name_spec in B2. apply is_tag_value_spec in B3.
      rewrite IH. split; intros (H1 & H2 & H3).
      * split; [constructor; [|exact H1]; intros X; apply (H2 n X); left; reflexivity|]. split.
        -- intros m [<-|X]; [exact B1|]. intros Y. apply (H2 m X). right. exact Y.
        -- intros m w [X|X]; [injection X as <- <-; auto|eauto].
      * inversion H1 as [|? ? N1 N2]; subst. split; [exact N2|]. split.
        -- intros m X [<-|Y]; [exact (N1 X)|]. apply (H2 m); auto. right. exact X.
        -- intros m w X. apply H3. right. exact X.
Qed.

Section WithEnv.
Variable E : Env.
Notation C := (env_crypto E).
Notation idna := (env_idna E).

Lemma indent_check : forall ind, is_nil ind || existsb (fun c => negb (is_wsp c)) ind = false <-> wsps ind /\ ind <> [].
Proof.
  intros ind. rewrite orb_false_iff, is_nil_false, existsb_false. unfold wsps. rewrite Forall_forall.
  unfold is_wsp, SP, TAB. split; intros [H1 H2]; split; auto; intros c Hc.
  - specialize (H2 c Hc). lia.
  - specialize (H1 c Hc). lia.
Qed.

Lemma validate_spec : forall r, request_typed E r ->
  exists v, validate_request E r = Val v /\ first_of
    (request_checks E r) match v with
                         | Some e => Some e
                         | None => match bl_to_usize (env_usize_max E) (r_body_length E r) with
                                   | None => Some ReqOverflow
                                   | Some _ => None
                                   end
                         end.
Proof.
  intros r (Td & Ts & Ti & Tn & To). unfold request_checks.
  assert (exists b, match r_identity E r with
      | Some identity => eq_or_subdomain_of idna (id_domain identity) (r_domain E r)
      | None => Val true end = Val b /\ (b = false <-> exists i, r_identity E r = Some i
      /\ lower (id_domain i) <> lower (r_domain E r)
      /\ ~ ascii_subdomain idna (id_domain i) (r_domain E r))) as (ok & Eok & Hok).
  { destruct (r_identity E r) as [i|] eqn:Ei.
    - destruct (Ti i eq_refl) as [X _]. destruct (eq_or_subdomain_spec idna _ _ _ _ X Td) as (b & Hb & Hs).
      exists b. split; [exact Hb|]. split.
      + intros ->. exists i. split; [reflexivity|]. split; intros Y; assert (false = true) by tauto; discriminate.
      + intros (j & J & J1 & J2). injection J as <-. destruct b; [|reflexivity]. tauto.
    - exists true. split; [reflexivity|]. split; [discriminate|]. intros (i & X & _). discriminate. }
  set (f := fun v : option RequestError => match v with
    | Some e => Some e
    | None => match bl_to_usize (env_usize_max E) (r_body_length E r) with None => Some ReqOverflow | Some _ => None end
    end).
  match goal with |- exists v, _ = Val v /\ first_of ?l _ => change (exists v, validate_request E r = Val v /\ first_of l (f v)) end.
  unfold validate_request. rewrite Eok. cbn [bind].
  apply (first_of_step _ _ _ _ _ _ f); [|reflexivity|].
  { destruct (r_signing_key E r), (r_algorithm E r); cbn; intuition discriminate. }
  apply (first_of_step _ _ _ _ _ _ f); [|reflexivity|].
  { destruct (r_header_selection E r) as [|ns].
    - split; [discriminate|]. intros (x & X & _). discriminate.
    - rewrite negb_true_iff, existsb_from_none. split; [eauto|]. intros (x & X & Y). injection X as <-. exact Y. }
  apply (first_of_step _ _ _ _ _ _ f); [|reflexivity|].
  { destruct (r_header_selection E r) as [|ns].
    - split; [discriminate|]. intros (x & n & X & _). discriminate.
    - rewrite existsb_exists. split.
      + intros (n & X & Y). apply contains_char_In in Y. eauto.
      + intros (x & n & X & Y & Z). injection X as <-. exists n. rewrite contains_char_In. auto. }
  apply (first_of_step _ _ _ _ _ _ f); [rewrite negb_true_iff; exact Hok|reflexivity|].
  apply (first_of_step _ _ _ _ _ _ f); [|reflexivity|].
  { destruct (r_valid_duration E r) as [d|]; [|split; discriminate].
    rewrite N.eqb_eq. split; congruence. }
  apply (first_of_step _ _ _ _ _ _ f); [|reflexivity|].
  { pose proof (ext_tags_bad_spec (r_ext_tags E r) []) as X. split.
    - intros Hb (Y1 & Y2). assert (ext_tags_bad [] (r_ext_tags E r) = false); [|congruence]. apply X. auto.
    - intros Y. destruct (ext_tags_bad [] (r_ext_tags E r)); [reflexivity|]. exfalso. apply Y.
      destruct (proj1 X eq_refl) as (Z1 & _ & Z2). auto. }
  apply (first_of_step _ _ _ _ _ _ f); [|reflexivity|].
  { rewrite negb_true_iff. pose proof (eqic_lower (of_header_name (r_format E r)) DKIM_SIGNATURE_NAME) as X.
    change (lower DKIM_SIGNATURE_NAME) with (lit "dkim-signature") in X.
    split; [intros Y Z; apply X in Z; congruence|]. intros Y. destruct (eq_ignore_ascii_case _ _); [|reflexivity]. exfalso. apply Y. tauto. }
  cbv zeta. apply (first_of_step _ _ _ _ _ _ f); [|reflexivity|].
  { pose proof (indent_check (of_indentation (r_format E r))) as X.
    destruct (is_nil _ || existsb _ _); split; try discriminate; intros; [|reflexivity|]; intuition discriminate. }
  exists None. split; [reflexivity|]. unfold f. cbv beta iota.
  unfold bl_to_usize. destruct (r_body_length E r) as [| |n]; [| |].
  - apply fo_next; [intros (n & X & _); discriminate|constructor].
  - apply fo_next; [intros (n & X & _); discriminate|constructor].
  - destruct (n <=? env_usize_max E) eqn:Hn.
    + apply fo_next; [intros (m & X & Y); injection X as <-; lia|constructor].
    + constructor. exists n. split; [reflexivity|lia].
Qed.


(** ** Preparation *)

Definition limit_of (r : SignRequest E) : option N :=
  match r_body_length E r with ExactLen n => Some n | _ => None end.
Definition key_of (r : SignRequest E) : BodyHasherKey := request_key E (limit_of r) r.

Lemma bl_to_usize_limit : forall r x, bl_to_usize (env_usize_max E) (r_body_length E r) = Some x -> x = limit_of r.
Proof.
  intros r x. unfold bl_to_usize, limit_of. destruct (r_body_length E r) as [| |n]; [congruence|congruence|].
  destruct (n <=? env_usize_max E); congruence.
Qed.

Lemma prepare_loop_spec : forall rs i b, Forall (request_typed E) rs ->
  exists res, prepare_loop E i b rs = Val res /\
    match res with
    | Err e => first_of (requests_checks E (10 - i) rs) (Some e)
    | Ok b' => first_of (requests_checks E (10 - i) rs) None /\ b' = fold_left bhb_register (map key_of rs) b
    end.
Proof.
  induction rs as [|r rs IH]; intros i b T; cbn [prepare_loop requests_checks map fold_left].
  - eexists. split; [reflexivity|]. split; [constructor|reflexivity].
  - destruct (Nat.leb 10 i) eqn:Hi.
    { eexists. split; [reflexivity|]. cbn beta iota. constructor. lia. }
    assert (10 - i <> 0)%nat as Hr by lia.
    destruct (validate_spec r (Forall_inv T)) as (v & Ev & Hv). rewrite Ev. cbn [bind].
    destruct v as [e|].
    { eexists. split; [reflexivity|]. cbn beta iota. apply fo_next; [exact Hr|]. apply first_of_app_some. exact Hv. }
    destruct (bl_to_usize _ _) as [l|] eqn:El.
    + rewrite (bl_to_usize_limit _ _ El). destruct (IH (S i) (bhb_register b (key_of r)) (Forall_inv_tail T)) as (res & E1 & H1).
      fold (key_of r). rewrite E1. exists res. split; [reflexivity|].
      replace (10 - S i)%nat with (10 - i - 1)%nat in H1 by lia.
      destruct res as [b'|e].
      * destruct H1 as [H1 ->]. split; [|reflexivity]. apply fo_next; [exact Hr|]. apply first_of_app_none; auto.
      * apply fo_next; [exact Hr|]. apply first_of_app_none; auto.
    + eexists. split; [reflexivity|]. cbn beta iota. apply fo_next; [exact Hr|]. apply first_of_app_some. exact Hv.
Qed.

Lemma from_field : forall (headers : list HeaderField),
  negb (existsb (fun f => name_eqb (fst f) (lit "From")) headers) = true <->
  forall f, In f headers -> ~ same_name (fst f) (lit "From").
Proof.
  intros headers. rewrite negb_true_iff.
  replace (existsb (fun f => name_eqb (fst f) (lit "From")) headers) with (existsb (fun n => name_eqb n (lit "From")) (map fst headers)).
  - rewrite existsb_from_none. split.
    + intros H f Hf. apply H. apply in_map. exact Hf.
    + intros H n Hn. apply in_map_iff in Hn as (f & <- & Hf). auto.
  - induction headers as [|f hs IH]; cbn [map existsb]; [reflexivity|]. rewrite IH. reflexivity.
Qed.

Theorem prepare_spec : forall order headers rs, Forall (request_typed E) rs ->
  exists e, first_of (signing_checks E headers rs) e /\
    prepare_signing E order headers rs =
    Val match e with
        | Some e => Err e
        | None => let b := fold_left bhb_register (map key_of rs) (bhb_new false) in
                  Ok (mkSigner E rs headers (bhb_build b (order (bhb_registrations b))))
        end.
Proof.
  intros order headers rs T. unfold prepare_signing, signing_checks. cbn [app].
  pose proof (from_field headers) as Hf.
  destruct (negb (existsb _ headers)) eqn:Ef.
  { exists (Some MissingFromHeader). split; [|reflexivity]. constructor. apply Hf. reflexivity. }
  assert (~ forall f, In f headers -> ~ same_name (fst f) (lit "From")) as Nf.
  { intros X. apply Hf in X. discriminate. }
  destruct (prepare_loop_spec rs 0 (bhb_new false) T) as (res & E1 & H1). rewrite E1. cbn [bind].
  change (10 - 0)%nat with 10%nat in H1.
  destruct res as [b|e].
  - destruct H1 as [H1 ->]. destruct (is_nil rs) eqn:En.
    + exists (Some EmptyRequests). split; [|reflexivity]. apply fo_next; [exact Nf|].
      apply first_of_app_none; [exact H1|]. constructor. apply is_nil_true. exact En.
    + exists None. split; [|reflexivity]. apply fo_next; [exact Nf|].
      apply first_of_app_none; [exact H1|]. apply fo_next; [|constructor]. apply is_nil_false. exact En.
  - exists (Some e). split; [|reflexivity]. apply fo_next; [exact Nf|]. apply first_of_app_some. exact H1.
Qed.

Lemma checks_none : forall headers rs, first_of (signing_checks E headers rs) None <->
  (exists f, In f headers /\ same_name (fst f) (lit "From"))
  /\ (1 <= length rs <= 10)%nat /\ Forall (fun r => first_of (request_checks E r) None) rs.
Proof.
  intros headers rs. unfold signing_checks.
  assert (forall n, first_of (requests_checks E n rs) None <->
      (length rs <= n)%nat /\ Forall (fun r => first_of (request_checks E r) None) rs) as X.
  { induction rs as [|r rs IH]; intros n; cbn [requests_checks length].
    - split; [intros _; split; [lia|constructor]|intros _; constructor].
    - split.
      + intros H. apply first_of_cons_none in H as [N Y]. apply first_of_none_app in Y as [Y Z].
        apply IH in Z as [Z1 Z2]. split; [lia|constructor; auto].
      + intros [H1 H2]. apply fo_next; [lia|]. apply first_of_app_none; [exact (Forall_inv H2)|].
        apply IH. split; [lia|exact (Forall_inv_tail H2)]. }
  pose proof (from_field headers) as Hf.
  split.
  - intros H. apply first_of_cons_none in H as [N Y]. apply first_of_none_app in Y as [Y Z].
    apply X in Y as [Y1 Y2]. apply first_of_cons_none in Z as [N' _].
    split; [|split; [split; [destruct rs; [congruence|cbn; lia]|exact Y1]|exact Y2]].
    destruct (existsb (fun f => name_eqb (fst f) (lit "From")) headers) eqn:Ee.
    + apply existsb_exists in Ee as (f & F1 & F2). exists f. split; [exact F1|].
      rewrite name_eqb_same in F2. apply leqb_eq in F2. exact F2.
    + exfalso. apply N. apply Hf. reflexivity.
  - intros ((f & F1 & F2) & [L1 L2] & F). cbn [app]. apply fo_next; [intros Y; exact (Y f F1 F2)|].
    apply first_of_app_none; [apply X; auto|]. apply fo_next; [|constructor]. intros ->. cbn in L1. lia.
Qed.

(** ** Signing *)

Lemma accepted : forall r, request_typed E r -> first_of (request_checks E r) None ->
  key_type_eqb (sk_key_type C (r_signing_key E r)) (alg_key_type (r_algorithm E r)) = true
  /\ (forall names, r_header_selection E r = Manual names ->
        (exists n, In n names /\ same_name n (lit "From")) /\ forall n, In n names -> ~ In 59 n)
  /\ (forall i, r_identity E r = Some i -> lower (id_domain i) = lower (r_domain E r)
        \/ ascii_subdomain idna (id_domain i) (r_domain E r))
  /\ r_valid_duration E r <> Some 0
  /\ NoDup (map fst (r_ext_tags E r))
  /\ (forall n v, In (n, v) (r_ext_tags E r) ->
        tag_name_text n /\ (v = [] \/ tag_value_text v) /\ ~ In n written_tags)
  /\ lower (of_header_name (r_format E r)) = lit "dkim-signature"
  /\ wsps (of_indentation (r_format E r)) /\ of_indentation (r_format E r) <> []
  /\ bl_to_usize (env_usize_max E) (r_body_length E r) = Some (limit_of r).
Proof.
  intros r T H. unfold request_checks in H.
  apply first_of_cons_none in H as [H1 H]. apply first_of_cons_none in H as [H2 H].
  apply first_of_cons_none in H as [H3 H]. apply first_of_cons_none in H as [H4 H].
  apply first_of_cons_none in H as [H5 H]. apply first_of_cons_none in H as [H6 H].
  apply first_of_cons_none in H as [H7 H]. apply first_of_cons_none in H as [H8 H].
  apply first_of_cons_none in H as [H9 H].
  assert (NoDup (map fst (r_ext_tags E r)) /\ forall n v, In (n, v) (r_ext_tags E r) ->
        tag_name_text n /\ (v = [] \/ tag_value_text v) /\ ~ In n written_tags) as H6'.
  { destruct (ext_tags_bad [] (r_ext_tags E r)) eqn:B.
    - exfalso. apply H6. intros (Y1 & Y2). assert (ext_tags_bad [] (r_ext_tags E r) = false); [|congruence].
      apply ext_tags_bad_spec. auto.
    - apply ext_tags_bad_spec in B. tauto. }
  split. { destruct (r_signing_key E r), (r_algorithm E r); cbn in *; tauto. }
  split.
  { intros names Hn. split.
    - destruct (existsb (fun n => name_eqb n (lit "From")) names) eqn:Ee; [apply existsb_from; exact Ee|].
      exfalso. apply H2. exists names. split; [exact Hn|]. apply existsb_from_none. exact Ee.
    - intros n Hi Hs. apply H3. eauto. }
  split.
  { intros i Hi. destruct T as (Td & _ & Ti & _). destruct (Ti i Hi) as [X _].
    destruct (eq_or_subdomain_spec idna _ _ _ _ X Td) as (b & Hb & Hs). apply Hs.
    destruct b; [reflexivity|]. exfalso. apply H4. exists i. split; [exact Hi|].
    split; intros Y; assert (false = true) by tauto; discriminate. }
  split; [exact H5|]. split; [exact (proj1 H6')|]. split; [exact (proj2 H6')|].
  split. { destruct (eq_ignore_ascii_case (of_header_name (r_format E r)) DKIM_SIGNATURE_NAME) eqn:Ee.
    - apply eqic_lower in Ee. exact Ee.
    - exfalso. apply H7. intros Y. assert (eq_ignore_ascii_case (of_header_name (r_format E r)) DKIM_SIGNATURE_NAME = true); [|congruence].
      apply eqic_lower. exact Y. }
  assert (wsps (of_indentation (r_format E r)) /\ of_indentation (r_format E r) <> []) as H8'.
  { apply indent_check. destruct (is_nil _ || existsb _ _) eqn:Ee; [|reflexivity]. exfalso. apply H8. intros Y.
    apply indent_check in Y. congruence. }
  split; [exact (proj1 H8')|]. split; [exact (proj2 H8')|].
  unfold bl_to_usize, limit_of. destruct (r_body_length E r) as [| |n]; [reflexivity|reflexivity|].
  destruct (n <=? env_usize_max E) eqn:Hn; [reflexivity|]. exfalso. apply H9. exists n. split; [reflexivity|lia].
Qed.

Lemma field_name_valid : forall n, field_name n -> valid_name n.
Proof.
  intros n [H1 H2]. split; [exact H1|]. eapply Forall_impl; [|exact H2]. unfold ftext. intros. cbn beta in *. lia.
Qed.

Lemma header_name_valid : forall n, lower n = lit "dkim-signature" -> field_name n.
Proof.
  intros n H. split.
  - intros ->. discriminate.
  - assert (Forall (fun c => 97 <= c <= 122 \/ c = 45) (lower n)) as X.
    { rewrite H. cbn. repeat constructor; lia. }
    unfold lower in X. rewrite Forall_map in X. eapply Forall_impl; [|exact X].
    intros c. cbn beta. unfold ftext. destruct ((65 <=? c) && (c <=? 90)) eqn:B; lia.
Qed.

Lemma data_hash_spec : forall u headers name value,
  Forall (fun f : HeaderField => field_name (fst f)) headers -> field_name name ->
  compute_data_hash (hash_fn C) (alg_hash (u_algorithm u)) (c_header (u_canonicalization u)) headers (u_signed_headers u)
    name value = header_digest E u headers name value.
Proof.
  intros u headers name value Hh Hn. unfold compute_data_hash, digest, header_digest.
  rewrite canonicalize_headers_spec by (eapply Forall_impl; [|exact Hh]; intros; apply field_name_valid; assumption).
  rewrite canonicalize_header_spec by (apply field_name_valid; exact Hn). reflexivity.
Qed.

Lemma sign_hash_bytes : forall k a d s, crypto_typed E -> sign_hash E k (alg_hash a) d = Some s -> Forall is_byte s.
Proof.
  intros k a d s (_ & H1 & H2) X. destruct k as [k|k]; cbn [sign_hash] in X; [eauto|]. injection X as <-. auto.
Qed.

Lemma written_names : forall u, incl (map (fun p => lit (fst p)) (tag_table u)) written_tags.
Proof. intros u x H. cbn [tag_table map fst] in H. unfold written_tags. cbn [map]. cbn [In] in *. tauto. Qed.

Lemma selected_in : forall A (P : A -> Prop) l l' x, selected P l l' -> In x l' -> In x l /\ P x.
Proof. intros A P l l' x H. induction H; cbn [In]; intros X; [tauto| |tauto]. destruct X as [<-|X]; tauto. Qed.

Lemma selected_all : forall A (P : A -> Prop) l l' x, selected P l l' -> In x l -> P x -> In x l'.
Proof. intros A P l l' x H. induction H; cbn [In]; intros X Y; [tauto| |]; destruct X as [->|X]; tauto. Qed.

Lemma tag_name_ascii : forall n, tag_name_text n -> Forall (fun c => c < 128) n.
Proof.
  intros n (c & n' & -> & H1 & H2). unfold alpha, alnum_ in *. constructor; [lia|].
  eapply Forall_impl; [|exact H2]. intros d. cbn beta. unfold alpha. lia.
Qed.

Lemma signed_names_from : forall r headers names, request_typed E r -> first_of (request_checks E r) None ->
  (exists f, In f headers /\ same_name (fst f) (lit "From")) ->
  signed_names E r headers names ->
  (exists n, In n names /\ same_name n (lit "From")) /\ forall n, In n names -> ~ In 59 n.
Proof.
  intros r headers names T H (f & F1 & F2) S. apply accepted in H as (_ & H2 & _); [|exact T].
  destruct S as [fs Ha Hs|names Hm]; [|apply H2; exact Hm]. split.
  - exists (fst f). split; [|exact F2]. rewrite <- in_rev. apply in_map. eapply selected_all; [exact Hs|exact F1|].
    unfold same_name in F2. cbn beta. rewrite F2. left. reflexivity.
  - intros n Hn. rewrite <- in_rev in Hn. apply in_map_iff in Hn as (g & <- & Hg).
    destruct (selected_in _ _ _ _ _ Hs Hg) as [_ X]. intros Y.
    assert (In 59 (lower (fst g))) as Z by (unfold lower; apply in_map_iff; exists 59; split; [reflexivity|exact Y]).
    unfold signed_by_default in X. apply in_map_iff in X as (x & X1 & X2). rewrite <- X1 in Z.
    assert (forallb (fun x => negb (contains_char 59 (lit x)))
      ["from"; "reply-to"; "subject"; "date"; "to"; "cc"; "resent-date"; "resent-from";
           "resent-to"; "resent-cc"; "in-reply-to"; "references"; "list-id"; "list-help";
           "list-unsubscribe"; "list-subscribe"; "list-post"; "list-owner"; "list-archive"]%string = true) as B by reflexivity.
    rewrite forallb_forall in B. specialize (B x X2). rewrite negb_true_iff in B. apply contains_char_false in B. exact (B Z).
Qed.

Lemma to_sign_formattable : forall now r headers body u, crypto_typed E -> request_typed E r -> header_fields headers ->
  (exists f, In f headers /\ same_name (fst f) (lit "From")) -> first_of (request_checks E r) None ->
  to_sign E now r headers body u -> formattable idna u.
Proof.
  intros now r headers body u HC T Hh HF H (hashed & l & names & copied & Hb & Hn & Hc & ->).
  pose proof (signed_names_from _ _ _ T H HF Hn) as [(n & N1 & _) _].
  pose proof T as (Td & Ts & Ti & _). pose proof (accepted r T H) as (_ & _ & _ & _ & A5 & A6 & _).
  unfold formattable. cbn [u_domain u_selector u_identity u_signed_headers u_body_hash u_copied_headers u_ext_tags].
  split. { destruct Td as [(a & -> & _) _]. discriminate. }
  split. { destruct Ts as [(a & -> & _) _]. discriminate. }
  split. { intros i Hi. destruct (Ti i Hi) as [[(a & -> & _) _] X]. split; [discriminate|exact X]. }
  split. { intros ->. destruct N1. }
  split. { apply (proj1 HC). }
  split.
  { unfold copied_headers in Hc. destruct (r_copy_headers E r); [|subst; constructor].
    apply Forall_forall. intros f Hf. destruct (selected_in _ _ _ _ _ Hc Hf) as [X _].
    unfold header_fields in Hh. rewrite Forall_forall in Hh. destruct (Hh f X) as (_ & _ & Y). exact Y. }
  split; [exact A5|]. apply Forall_forall. intros x Hx. apply in_map_iff in Hx as ([m v] & <- & Hm).
  destruct (A6 m v Hm) as (X1 & _ & X2). cbn [fst]. split; [apply tag_name_ascii; exact X1|].
  intros Y. apply X2. eapply written_names. exact Y.
Qed.

Lemma accepted_format : forall r, request_typed E r -> first_of (request_checks E r) None -> format_ok (r_format E r).
Proof.
  intros r T H. pose proof (accepted r T H) as (_ & _ & _ & _ & _ & _ & A7 & A8 & A9 & _).
  destruct T as (_ & _ & _ & _ & T5). repeat split; assumption.
Qed.

Theorem perform_spec : forall now r headers body results, crypto_typed E -> request_typed E r -> header_fields headers ->
  (exists f, In f headers /\ same_name (fst f) (lit "From")) -> first_of (request_checks E r) None ->
  results_get results (key_of r) = Some (expected_result (hash_fn C) false (key_of r) body) ->
  exists res, perform_signing E now r headers results = Val res /\ signing_result E now r headers body res.
Proof.
  intros now r headers body results HC T Hh HF H HR.
  pose proof (accepted r T H) as (A1 & A2 & A3 & A4 & A5 & A6 & A7 & A8 & A9 & A10).
  pose proof (accepted_format r T H) as Hfmt.
  unfold perform_signing. rewrite A10. fold (key_of r). rewrite HR.
  set (cb := canonical_body (c_body (r_canonicalization E r)) body).
  assert (match r_body_length E r with
    | ExactLen n => N.of_nat (length cb) < n /\ expected_result (hash_fn C) false (key_of r) body = Err InsufficientInput
    | _ => False end \/
    exists hashed len, expected_result (hash_fn C) false (key_of r) body = Ok (hash_fn C (alg_hash (r_algorithm E r)) hashed, len)
      /\ signed_body E r body hashed (match r_body_length E r with NoLimit => None | _ => Some len end)) as X.
  { unfold expected_result, key_of, request_key, limit_of. fold cb.
    destruct (r_body_length E r) as [| |n] eqn:El.
    - right. do 2 eexists. split; [reflexivity|]. apply sb_all. exact El.
    - right. do 2 eexists. split; [reflexivity|]. apply sb_content. exact El.
    - destruct (N.of_nat (length cb) <? n) eqn:En; [left; split; [lia|reflexivity]|]. right. cbn [andb].
      do 2 eexists. split; [reflexivity|]. apply (sb_exact E r body n _ (skipn (N.to_nat n) cb)); [exact El| |].
      + rewrite firstn_length. lia.
      + fold cb. symmetry. apply firstn_skipn. }
  destruct X as [X|(hashed & len & Eh & Hb)].
  { destruct (r_body_length E r) as [| |n] eqn:El; [tauto|tauto|]. destruct X as [X ->].
    eexists. split; [reflexivity|]. eapply sr_insufficient; eauto. }
  rewrite Eh.
  set (l := match r_body_length E r with NoLimit => None | _ => Some len end) in *.
  assert (match r_body_length E r with NoLimit => Some None | _ => if len <=? u64_max then Some (Some len) else None end
          = match l with Some n => if n <=? u64_max then Some l else None | None => Some l end) as ->.
  { unfold l. destruct (r_body_length E r); reflexivity. }
  destruct (match l with Some n => n <=? u64_max | None => true end) eqn:Hl.
  2: { destruct l as [n|] eqn:Ell; [|discriminate]. rewrite Hl. eexists. split; [reflexivity|].
       eapply sr_overflow; [exact Hb|]. unfold u64_max in Hl. lia. }
  assert (match l with Some n => if n <=? u64_max then Some l else None | None => Some l end = Some l) as ->.
  { destruct l; [rewrite Hl|]; reflexivity. }
  set (names := match r_header_selection E r with Auto => select_signed_headers headers | Manual h => h end).
  assert (signed_names E r headers names) as Hn.
  { unfold names. destruct (r_header_selection E r) as [|ns] eqn:Es; [|apply sn_manual; exact Es].
    unfold select_signed_headers, select_headers.
    assert (selected (fun f : HeaderField => In (lower (fst f)) signed_by_default) headers
      (filter (fun f => existsb (name_eqb (fst f)) default_signed_headers) headers)) as X.
    { apply selected_filter. intros f _.
      change signed_by_default with (map lower default_signed_headers).
      rewrite existsb_exists, in_map_iff. split; intros (n & N1 & N2); exists n.
      - rewrite name_eqb_same in N2. apply leqb_eq in N2. auto.
      - split; [exact N2|]. rewrite name_eqb_same. apply leqb_eq. auto. }
    replace (filter _ (map fst (rev headers))) with
      (rev (map fst (filter (fun f : HeaderField => existsb (name_eqb (fst f)) default_signed_headers) headers))).
    - apply sn_auto; assumption.
    - rewrite map_rev. clear. induction headers as [|f hs IH]; [reflexivity|]. cbn [map rev filter].
      rewrite filter_app, <- IH. cbn [filter]. destruct (existsb _ _); cbn [map rev]; [reflexivity|rewrite app_nil_r; reflexivity]. }
  pose proof (signed_names_from _ _ _ T H HF Hn) as [Hfrom Hsemi].
  apply existsb_from in Hfrom. rewrite Hfrom. cbn [negb].
  assert (existsb (contains_char 59) names = false) as ->.
  { apply existsb_false. intros n N1. apply contains_char_false. auto. }
  cbv zeta.
  set (copied := if r_copy_headers E r then prepare_copied_headers headers names else []).
  assert (copied_headers E r headers names copied) as Hc.
  { unfold copied_headers, copied. destruct (r_copy_headers E r); [|reflexivity]. unfold prepare_copied_headers.
    apply selected_filter. intros f _. rewrite existsb_exists. split; intros (n & N1 & N2); exists n; split; auto.
    - rewrite name_eqb_same in N2. apply leqb_eq in N2. exact N2.
    - rewrite name_eqb_same. apply leqb_eq. exact N2. }
  match goal with |- context [produce_signature E ?x] => set (u := x) end.
  assert (to_sign E now r headers body u) as Hu.
  { exists hashed, l, names, copied. split; [exact Hb|]. split; [exact Hn|]. split; [exact Hc|].
    unfold u. unfold saturating_add, time_of. destruct (r_valid_duration E r), (r_timestamp E r); reflexivity. }
  pose proof (to_sign_formattable now r headers body u HC T Hh HF H Hu) as Hok.
  assert (forall m, u_body_length u = Some m -> m < 2^64) as Hlen.
  { intros m. unfold u. cbn [u_body_length]. intros ->. unfold u64_max in Hl. lia. }
  unfold produce_signature.
  destruct (format_spec idna u (r_format E r) (b64_length E (r_signing_key E r)) Hok Hfmt) as (pre & post & Hv & Ev).
  change (estimate_b_tag_length E (r_signing_key E r)) with (b64_length E (r_signing_key E r)).
  rewrite Ev. cbn [bind].
  change (alg_key_type (u_algorithm u)) with (alg_key_type (r_algorithm E r)). rewrite A1. cbn [negb].
  rewrite data_hash_spec; [|eapply Forall_impl; [|exact Hh]; cbn beta; tauto|apply header_name_valid; exact A7].
  set (dg := header_digest E u headers (of_header_name (r_format E r)) (pre ++ post)).
  change (sign_hash E (r_signing_key E r) (alg_hash (u_algorithm u)) dg)
    with (primitive_sign E (r_signing_key E r) (r_algorithm E r) dg).
  destruct (primitive_sign E (r_signing_key E r) (r_algorithm E r) dg) as [sd|] eqn:Es.
  - destruct (column_exists (of_header_name (r_format E r)) pre) as (n & Hcol).
    rewrite (insert_spec (r_format E r) pre post sd n Hfmt Hcol). cbn [bind].
    eexists. split; [reflexivity|].
    eapply sr_ok; eauto. apply encode_base64_spec.
    eapply (sign_hash_bytes (r_signing_key E r) (r_algorithm E r)); [exact HC|exact Es].
  - eexists. split; [reflexivity|]. eapply sr_failure; eauto.
Qed.

(** ** The whole signing process *)

Lemma signer_chunks_hash : forall chunks ts hs bh sts bh', hash_chunks bh chunks = Val (sts, bh') ->
  signer_chunks E (mkSigner E ts hs bh) chunks = Val (mkSigner E ts hs bh').
Proof.
  induction chunks as [|c cs IH]; intros ts hs bh sts bh' H; cbn [hash_chunks signer_chunks] in *.
  - injection H as <- <-. reflexivity.
  - unfold signer_chunk. cbn [sg_body_hasher sg_tasks sg_headers].
    destruct (hash_chunk bh c) as [[st bh1]|]; cbn [bind] in *; [|discriminate].
    destruct (hash_chunks bh1 cs) as [[sts2 bh2]|] eqn:E2; cbn [bind] in *; [|discriminate].
    injection H as <- <-. eapply IH. exact E2.
Qed.

Lemma sign_tasks_spec : forall clock headers body results ts i, crypto_typed E -> header_fields headers ->
  (exists f, In f headers /\ same_name (fst f) (lit "From")) ->
  Forall (fun r => request_typed E r /\ first_of (request_checks E r) None
     /\ results_get results (key_of r) = Some (expected_result (hash_fn C) false (key_of r) body)) ts ->
  exists rs, sign_tasks E clock i headers results ts = Val rs /\
    length rs = length ts /\
    forall j r res, nth_error ts j = Some r -> nth_error rs j = Some res ->
      signing_result E (clock (i + j)%nat) r headers body res.
Proof.
  intros clock headers body results ts i HC Hh HF H. revert i.
  induction H as [|t ts (H1 & H2 & H3) H IH]; intros i; cbn [sign_tasks].
  - exists []. split; [reflexivity|]. split; [reflexivity|]. intros [|j] r res X; discriminate.
  - destruct (perform_spec (clock i) t headers body results HC H1 Hh HF H2 H3) as (res & E1 & R1).
    destruct (IH (S i)) as (rs & E2 & L2 & R2). rewrite E1. cbn [bind]. rewrite E2. cbn [bind].
    exists (res :: rs). split; [reflexivity|]. split; [cbn; lia|].
    intros [|j] r res' X Y; cbn [nth_error] in X, Y.
    + injection X as <-. injection Y as <-. replace (i + 0)%nat with i by lia. exact R1.
    + replace (i + S j)%nat with (S i + j)%nat by lia. eapply R2; eauto.
Qed.

Theorem signing_spec : forall order headers rs chunks clock, crypto_typed E ->
  Forall (request_typed E) rs -> header_fields headers -> (forall l, Permutation (order l) l) ->
  exists e, first_of (signing_checks E headers rs) e /\
  match e with
  | Some e => sign_message E order headers rs chunks clock = Val (Err e)
  | None => exists results,
      sign_message E order headers rs chunks clock = Val (Ok results)
      /\ length results = length rs
      /\ forall j r res, nth_error rs j = Some r -> nth_error results j = Some res ->
           signing_result E (clock j) r headers (concat chunks) res
  end.
Proof.
  intros order headers rs chunks clock HC T Hh Ho. unfold sign_message.
  destruct (prepare_spec order headers rs T) as (e & H & Ep). exists e. split; [exact H|].
  rewrite Ep. destruct e as [e|]; cbn [bind]; [reflexivity|]. cbv zeta.
  set (b := fold_left bhb_register (map key_of rs) (bhb_new false)).
  destruct (hash_body_results (hash_fn C) b (order (bhb_registrations b)) chunks) as (sts & bh & H1 & _ & H2).
  rewrite (signer_chunks_hash _ _ _ _ _ _ H1). cbn [bind].
  apply checks_none in H as (HF & _ & Hr).
  unfold sign. cbn [sg_body_hasher sg_headers sg_tasks].
  destruct (sign_tasks_spec clock headers (concat chunks)
    (map (fun k => (k, expected_result (hash_fn C) (bhb_fail_on_truncate b) k (concat chunks))) (order (bhb_registrations b))) rs 0 HC Hh HF)
    as (results & E1 & L1 & R1).
  { apply Forall_forall. intros r Hi. split; [rewrite Forall_forall in T; auto|].
    split; [rewrite Forall_forall in Hr; auto|]. rewrite results_get_map.
    unfold b at 2. rewrite register_all_fot.
    assert (existsb (key_eqb (key_of r)) (order (bhb_registrations b)) = true) as ->; [|reflexivity].
    apply existsb_key_In. rewrite (Permutation_in' eq_refl (Ho _)). unfold b. rewrite register_all_in. left.
    apply in_map. exact Hi. }
  exists results. rewrite H2. cbn [bind]. rewrite E1. cbn [bind]. split; [reflexivity|]. split; [exact L1|].
  intros j r res X Y. apply (R1 j r res X Y).
Qed.

(** every result of a run is as specified *)
Theorem sign_results : forall order headers rs chunks clock results, crypto_typed E ->
  Forall (request_typed E) rs -> header_fields headers -> (forall l, Permutation (order l) l) ->
  sign_message E order headers rs chunks clock = Val (Ok results) ->
  (exists f, In f headers /\ same_name (fst f) (lit "From"))
  /\ (1 <= length rs <= 10)%nat /\ length results = length rs
  /\ forall j r res, nth_error rs j = Some r -> nth_error results j = Some res ->
       request_typed E r /\ first_of (request_checks E r) None
       /\ signing_result E (clock j) r headers (concat chunks) res.
Proof.
  intros order headers rs chunks clock results HC T Hh Ho H.
  destruct (signing_spec order headers rs chunks clock HC T Hh Ho) as (e & He & X). destruct e as [e|].
  - rewrite X in H. discriminate.
  - destruct X as (results' & X & L & R). rewrite X in H. injection H as ->.
    apply checks_none in He as (F & Len & A). split; [exact F|]. split; [exact Len|]. split; [exact L|].
    intros j r res H1 H2. pose proof (nth_error_In _ _ H1) as Hi. rewrite Forall_forall in T, A. auto.
Qed.

(** ** Skipping the rest of the body *)

Theorem signer_done : forall order headers rs s chunks s1 c s2 more,
  prepare_signing E order headers rs = Val (Ok s) ->
  signer_chunks E s chunks = Val s1 -> signer_chunk E s1 c = Val (Done, s2) ->
  signer_chunks E s2 more = Val s2.
Proof.
  intros order headers rs s chunks s1 c s2 more Hp H1 H2.
  assert (exists b ord, sg_body_hasher E s = bhb_build b ord) as (b & ord & Hb).
  { unfold prepare_signing in Hp. destruct (negb _); [discriminate|].
    destruct (prepare_loop E 0 (bhb_new false) rs) as [[b|]|]; cbn [bind] in Hp; [|discriminate|discriminate].
    destruct (is_nil rs); [discriminate|]. injection Hp as <-. cbn [sg_body_hasher]. eauto. }
  assert (forall cs s s', signer_chunks E s cs = Val s' -> exists sts,
     hash_chunks (sg_body_hasher E s) cs = Val (sts, sg_body_hasher E s')) as X.
  { induction cs as [|x cs IH]; intros t t' H; cbn [signer_chunks hash_chunks] in *.
    - injection H as <-. eauto.
    - unfold signer_chunk in H. destruct (hash_chunk (sg_body_hasher E t) x) as [[st bh]|]; cbn [bind] in *; [|discriminate].
      apply IH in H as (sts & H). cbn [sg_body_hasher] in H. rewrite H. cbn [bind]. eauto. }
  apply X in H1 as (sts & H1). rewrite Hb in H1.
  unfold signer_chunk in H2. destruct (hash_chunk (sg_body_hasher E s1) c) as [[st bh]|] eqn:Ec; cbn [bind] in H2; [|discriminate].
  injection H2 as -> <-.
  assert (hash_chunks (bhb_build b ord) (chunks ++ [c]) = Val (sts ++ [Done], bh)) as Hc.
  { rewrite hash_chunks_app, H1. cbn [bind hash_chunks]. rewrite Ec. reflexivity. }
  destruct (done_is_final _ _ _ _ _ more Hc) as (sts' & Hm & _). { apply in_or_app. right. left. reflexivity. }
  eapply signer_chunks_hash. exact Hm.
Qed.

(** ** Automatic selection *)

Lemma contributed_all : forall (p : HeaderField -> bool) headers A B,
  (forall f g, same_nameb (fst f) (fst g) = true -> p f = p g) -> rev headers = A ++ B ->
  contributed headers (map fst (filter p A)) (map fst (filter p B)) = filter p B.
Proof.
  intros p headers A B Hp. revert A. induction B as [|x B IH]; intros A HR; cbn [filter map contributed]; [reflexivity|].
  assert (rev headers = (A ++ [x]) ++ B) as HR' by (rewrite <- app_assoc; exact HR).
  specialize (IH (A ++ [x]) HR'). rewrite filter_app, map_app in IH. cbn [filter] in IH.
  destruct (p x) eqn:Ex; [|cbn [map] in IH; rewrite app_nil_r in IH; exact IH].
  cbn [map contributed] in *. rewrite IH.
  assert (kth_from_bottom headers (fst x) (S (occurrences (fst x) (map fst (filter p A)))) = Some x) as ->; [|reflexivity].
  unfold kth_from_bottom, occurrences. rewrite HR, filter_app. cbn [filter].
  assert (same_nameb (fst x) (fst x) = true) as Rx by apply leqb_refl. rewrite Rx.
  rewrite Nat.sub_succ, Nat.sub_0_r.
  assert (length (filter (fun n => same_nameb n (fst x)) (map fst (filter p A)))
          = length (filter (fun f : HeaderField => same_nameb (fst f) (fst x)) A)) as ->.
  { clear - Hp Ex. induction A as [|a A IH]; cbn [filter map]; [reflexivity|].
    destruct (p a) eqn:Ea; cbn [map filter].
    - destruct (same_nameb (fst a) (fst x)); cbn [length]; rewrite IH; reflexivity.
    - destruct (same_nameb (fst a) (fst x)) eqn:Es; [|exact IH]. rewrite (Hp a x Es) in Ea. congruence. }
  rewrite nth_error_app2 by lia. rewrite Nat.sub_diag. reflexivity.
Qed.

End WithEnv.

Lemma filter_rev' : forall A (p : A -> bool) l, filter p (rev l) = rev (filter p l).
Proof.
  induction l as [|x l IH]; cbn [rev filter]; [reflexivity|]. rewrite filter_app, IH. cbn [filter].
  destruct (p x); cbn [rev]; [reflexivity|apply app_nil_r].
Qed.

Lemma auto_spec : forall headers fs, selected (fun f : HeaderField => In (lower (fst f)) signed_by_default) headers fs ->
  contributed headers [] (rev (map fst fs)) = rev fs
  /\ forall n, In (lower n) signed_by_default ->
       occurrences n (rev (map fst fs)) = length (filter (fun f => same_nameb (fst f) n) headers).
Proof.
  intros headers fs H. set (p := fun f : HeaderField => mem_str (lower (fst f)) signed_by_default).
  assert (fs = filter p headers) as ->.
  { eapply selected_det; [exact H|]. apply selected_filter. intros f _. apply mem_str_In. }
  split.
  - rewrite <- map_rev, <- filter_rev'. apply (contributed_all p headers [] (rev headers)); [|reflexivity].
    intros f g Hs. unfold p. unfold same_nameb in Hs. apply leqb_eq in Hs. rewrite Hs. reflexivity.
  - intros n Hn. unfold occurrences. rewrite <- map_rev, <- filter_rev'.
    rewrite <- (rev_length (filter (fun f : HeaderField => same_nameb (fst f) n) headers)), <- filter_rev'.
    generalize (rev headers) as l. induction l as [|f l IH]; cbn [filter map]; [reflexivity|].
    destruct (same_nameb (fst f) n) eqn:Es.
    + assert (p f = true) as ->. { apply mem_str_In. unfold same_nameb in Es. apply leqb_eq in Es. rewrite Es. exact Hn. }
      cbn [map filter]. rewrite Es. cbn [length]. rewrite IH. reflexivity.
    + destruct (p f); cbn [map filter]; [rewrite Es|]; exact IH.
Qed.
