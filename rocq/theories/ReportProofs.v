(** Lemmas on reports and written key records. *)

From Coq Require Import String List.
From Verif Require Import Base Utf8 Base64 Canon BodyHash TagList Signature KeyRecord Crypto Verify Sign Report
  SpecText SpecTag SpecCanon SpecSig SpecRecord SpecReport Lib Utf8Proofs Base64Proofs TagListProofs SigProofs RecordProofs OutputProofs OutputParse.
Import ListNotations.
Open Scope N_scope.

(** ** Texts *)

(** [all] has all values of the type, and [text] tells them apart *)
Lemma texts_differ : forall A (text : A -> str) (all : list A) (index : A -> nat),
  (forall a, nth_error all (index a) = Some a) ->
  forallb (fun a => forallb (fun b => negb (leqb (text a) (text b)) || Nat.eqb (index a) (index b)) all) all = true ->
  forall a b, text a = text b -> a = b.
Proof.
  intros A text all index H F a b E. rewrite forallb_forall in F. specialize (F a (nth_error_In _ _ (H a))).
  rewrite forallb_forall in F. specialize (F b (nth_error_In _ _ (H b))). rewrite E, leqb_refl in F. cbn in F. apply Nat.eqb_eq in F.
  pose proof (H a) as Ha. rewrite F, H in Ha. congruence.
Qed.

Definition all_kinds : list SigErrorKind :=
  [EUtf8Encoding; ETagListFormat; EIncompatibleVersion; EHistoricAlgorithm; EUnsupportedAlgorithm; EInvalidBase64; EEmptySignatureTag;
   EEmptyBodyHashTag; EUnsupportedCanonicalization; EInvalidDomain; EInvalidSignedHeaderName; EEmptySignedHeadersTag; EFromHeaderNotSigned;
   EInvalidIdentity; EInvalidBodyLength; EInvalidQueryMethod; ENoSupportedQueryMethods; EInvalidSelector; EInvalidTimestamp; EInvalidExpiration;
   EInvalidCopiedHeaderField; EMissingVersionTag; EMissingAlgorithmTag; EMissingSignatureTag; EMissingBodyHashTag; EMissingDomainTag;
   EMissingSignedHeadersTag; EMissingSelectorTag; EDomainMismatch; EExpirationNotAfterTimestamp].
Definition kind_index (k : SigErrorKind) : nat :=
  match k with
  | EUtf8Encoding => 0 | ETagListFormat => 1 | EIncompatibleVersion => 2 | EHistoricAlgorithm => 3 | EUnsupportedAlgorithm => 4
  | EInvalidBase64 => 5 | EEmptySignatureTag => 6 | EEmptyBodyHashTag => 7 | EUnsupportedCanonicalization => 8 | EInvalidDomain => 9
  | EInvalidSignedHeaderName => 10 | EEmptySignedHeadersTag => 11 | EFromHeaderNotSigned => 12 | EInvalidIdentity => 13 | EInvalidBodyLength => 14
  | EInvalidQueryMethod => 15 | ENoSupportedQueryMethods => 16 | EInvalidSelector => 17 | EInvalidTimestamp => 18 | EInvalidExpiration => 19
  | EInvalidCopiedHeaderField => 20 | EMissingVersionTag => 21 | EMissingAlgorithmTag => 22 | EMissingSignatureTag => 23 | EMissingBodyHashTag => 24
  | EMissingDomainTag => 25 | EMissingSignedHeadersTag => 26 | EMissingSelectorTag => 27 | EDomainMismatch => 28 | EExpirationNotAfterTimestamp => 29
  end%nat.

Lemma kind_text_inj : forall a b, sig_kind_text a = sig_kind_text b -> a = b.
Proof. apply (texts_differ _ sig_kind_text all_kinds kind_index); [intros []; reflexivity|vm_compute; reflexivity]. Qed.

Lemma record_text_inj : forall a b, key_record_error_text a = key_record_error_text b -> a = b.
Proof. intros a b; destruct a, b; intros H; (reflexivity || (vm_compute in H; discriminate H)). Qed.
Lemma crypto_text_inj : forall a b, crypto_error_text a = crypto_error_text b -> a = b.
Proof. intros a b; destruct a, b; intros H; (reflexivity || (vm_compute in H; discriminate H)). Qed.
Lemma policy_text_inj : forall a b, policy_error_text a = policy_error_text b -> a = b.
Proof. intros a b; destruct a, b; intros H; (reflexivity || (vm_compute in H; discriminate H)). Qed.
Lemma request_text_inj : forall a b, request_error_text a = request_error_text b -> a = b.
Proof. intros a b; destruct a, b; intros H; (reflexivity || (vm_compute in H; discriminate H)). Qed.
Lemma signing_text_inj : forall a b, signing_error_text a = signing_error_text b -> a = b.
Proof. intros a b; destruct a, b; intros H; (reflexivity || (vm_compute in H; discriminate H)). Qed.

Lemma error_told : forall e e', verification_error_text e = verification_error_text e' ->
  (forall s s', error_source e = Some s -> error_source e' = Some s' -> source_text s = source_text s') -> same_error e e'.
Proof.
  intros e e' T S. destruct e, e'; try (vm_compute in T; discriminate T); try (apply se_other);
    specialize (S _ _ eq_refl eq_refl); cbn [source_text] in S.
  - apply se_signature. apply kind_text_inj. exact S.
  - apply record_text_inj in S. subst. apply se_other.
  - apply crypto_text_inj in S. subst. apply se_other.
  - apply policy_text_inj in S. subst. apply se_other.
Qed.

(** ** Key records *)

Lemma ofws_nil : ofws []. Proof. left. reflexivity. Qed.
Lemma ofws_sp : ofws [32].
Proof. right. exists [32]. split; [constructor; [auto|constructor]|]. split; [discriminate|auto]. Qed.

Lemma written_spec : forall f n v, ofws f -> tag_name_text n -> v = [] \/ tag_value_text v -> tag_spec_text (f ++ n ++ [61] ++ v) n v.
Proof.
  intros f n v F N [->|V].
  - exact (ts_empty f [] [] n F ofws_nil ofws_nil N).
  - pose proof (ts_value f [] [] [] n v F ofws_nil ofws_nil ofws_nil N V) as X. cbn [app] in X. rewrite app_nil_r in X. exact X.
Qed.

Lemma written_list : forall tags f, ofws f -> tags <> [] ->
  Forall (fun t => tag_name_text (fst t) /\ (snd t = [] \/ tag_value_text (snd t))) tags ->
  tag_list_text (f ++ written_tags tags) tags.
Proof.
  induction tags as [|[n v] tags IH]; intros f F Ne H; [congruence|]. inversion H as [|? ? [N V] H']; subst. cbn [fst snd] in *.
  destruct tags as [|t tags].
  - apply tl_last. apply written_spec; assumption.
  - change (written_tags ((n, v) :: t :: tags)) with (n ++ [61] ++ v ++ [59; 32] ++ written_tags (t :: tags)).
    replace (f ++ n ++ [61] ++ v ++ [59; 32] ++ written_tags (t :: tags)) with ((f ++ n ++ [61] ++ v) ++ [59] ++ ([32] ++ written_tags (t :: tags))).
    2: { rewrite <- !app_assoc. reflexivity. }
    apply tl_cons; [apply written_spec; assumption|]. apply IH; [exact ofws_sp|discriminate|exact H'].
Qed.

(** a list of names that need no folding *)
Lemma names_items : forall names, names <> [] -> Forall (fun n => tag_value_text n /\ ~ In 58 n) names ->
  items_text (colon_joined names) names.
Proof.
  intros names Ne H. split.
  - exists names. split; [exact Ne|]. split; [reflexivity|]. split.
    + clear Ne. induction H as [|n l [V _] H IH]; constructor; [|exact IH]. exists [], []. rewrite app_nil_r.
      split; [exact ofws_nil|]. split; [exact ofws_nil|]. split; [reflexivity|]. right. exact V.
    + eapply Forall_impl; [|exact H]. cbn. tauto.
  - intros X. rewrite Forall_forall in H. apply H in X as [X _]. inversion X.
Qed.

Lemma all_recognised : forall A (R : str -> option A -> Prop) (text : A -> str) l, Forall (fun a => R (text a) (Some a)) l -> recognised R (map text l) l.
Proof. intros A R text l H. induction H; cbn [map]; constructor; assumption. Qed.

Lemma written_names : forall A (R : str -> option A -> Prop) (text : A -> str) l, l <> [] ->
  Forall (fun a => R (text a) (Some a)) l ->
  (forall a, (text a <> [] /\ forallb (fun c => (33 <=? c) && (c <=? 126) && negb (c =? 59)) (text a) = true) /\ existsb (N.eqb 58) (text a) = false) ->
  SpecRecord.names_text R (colon_joined (map text l)) l.
Proof.
  intros A R text l Ne H T. exists (map text l). split; [|apply all_recognised; exact H]. apply names_items.
  - destruct l; [congruence|discriminate].
  - apply Forall_map. apply Forall_forall. intros a _. destruct (T a) as [[T1 T2] T3]. split; [apply lit_value; assumption|].
    intros X. assert (existsb (N.eqb 58) (text a) = true) as Y by (apply existsb_exists; exists 58; split; [exact X|reflexivity]). congruence.
Qed.

Lemma joined_visible : forall names, names <> [] -> Forall (fun n => n <> [] /\ forallb (fun c => (33 <=? c) && (c <=? 126) && negb (c =? 59)) n = true) names ->
  tag_value_text (colon_joined names).
Proof.
  intros names Ne H. apply lit_value.
  - destruct H as [|n l [X _] H]; [congruence|]. destruct l; cbn [colon_joined]; [exact X|]. destruct n; discriminate.
  - clear Ne. induction H as [|n l [_ X] H IH]; [reflexivity|]. destruct l; cbn [colon_joined]; [exact X|].
    rewrite !forallb_app. cbn [colon_joined] in IH. rewrite X, IH. reflexivity.
Qed.

Lemma get_ext : forall name l, (forall n v, In (n, v) l -> n <> name) -> tag_get name (map (fun t => mkTag (fst t) (snd t)) l) = None.
Proof.
  intros name l H. induction l as [|[n v] l IH]; [reflexivity|]. cbn [map tag_get tag_name tag_value fst snd].
  destruct (leqb n name) eqn:X; [apply leqb_eq in X; exfalso; exact (H n v (or_introl eq_refl) X)|]. apply IH. intros; eapply H; right; eassumption.
Qed.

Lemma nodup_apart : forall A (l l' : list A), NoDup l -> NoDup l' -> (forall x, In x l -> In x l' -> False) -> NoDup (l ++ l').
Proof.
  intros A l l' H H' D. induction H as [|x l X H IH]; [exact H'|]. cbn [app]. constructor.
  - rewrite in_app_iff. intros [Y|Y]; [exact (X Y)|exact (D x (or_introl eq_refl) Y)].
  - apply IH. intros y Y. apply D. right. exact Y.
Qed.

Lemma spaced_self : forall s, spaced s s.
Proof. induction s; [constructor|]. apply (sp_cons [] a s s ofws_nil IHs). Qed.

Lemma ext_known : forall known l l', Forall (fun t => In (fst t) known) l -> Forall (fun t => ~ In (fst t) known) l' ->
  ext_tags known (map (fun t => mkTag (fst t) (snd t)) (l ++ l')) = l'.
Proof.
  intros known l l' H H'. induction H as [|[n v] l X H IH].
  - cbn [app]. induction H' as [|[n v] l' X H' IH]; [reflexivity|]. cbn [map ext_tags tag_name tag_value fst snd] in *.
    destruct (mem_str n known) eqn:M; [apply mem_str_In in M; tauto|]. rewrite IH. reflexivity.
  - cbn [app map ext_tags tag_name tag_value fst snd] in *. apply mem_str_In in X. rewrite X. exact IH.
Qed.

Lemma hash_written : forall pre h, (pre = false -> h <> Sha1) -> hash_name pre (hash_alg_str h) (Some h).
Proof. intros pre [] H; [constructor; reflexivity|]. constructor; [destruct pre; [reflexivity|exfalso; apply H; reflexivity]|reflexivity]. Qed.

Lemma record_round_trip : forall pre r p, writable pre r -> base64 (k_key_data r) p ->
  record_from_str pre (written_tags (record_tags hash_alg_str key_type_str service_type_str selector_flag_str r p)) = Val (Ok r).
Proof.
  intros pre [hs k notes data ss fs ext] p (Hh & Hpre & Hd & Hs & Hn & ND & Hext') Hp. cbn [k_hash_algorithms k_key_type k_notes k_key_data k_service_types k_flags k_ext_tags] in *.
  subst notes. apply record_exact.
  assert (Forall (fun t => tag_name_text (fst t) /\ (snd t = [] \/ tag_value_text (snd t)) /\ ~ In (fst t) known_key_tags) ext) as Hext.
  { eapply Forall_impl; [|exact Hext']. intros []. exact (fun x => x). }
  clear Hext'. unfold record_tags. cbn [k_hash_algorithms k_key_type k_notes k_key_data k_service_types k_flags k_ext_tags].
  set (known := [(lit "v", lit "DKIM1"); (lit "h", colon_joined (map hash_alg_str hs)); (lit "k", key_type_str k); (lit "p", p);
    (lit "s", colon_joined (map service_type_str ss))]).
  set (flags := match fs with [] => [] | _ :: _ => [(lit "t", colon_joined (map selector_flag_str fs))] end).
  set (l := known ++ flags ++ ext). exists (map (fun t => mkTag (fst t) (snd t)) l).
  change (known ++ _) with l.
  assert (map (fun t => (tag_name t, tag_value t)) (map (fun t => mkTag (fst t) (snd t)) l) = l) as X.
  { rewrite map_map. rewrite <- (map_id l) at 2. apply map_ext. intros []. reflexivity. }
  rewrite X. clear X.
  assert (forall c, alpha c -> tag_name_text [c]) as N1.
  { intros c Hc. exists c, []. auto. }
  assert (tag_name_text (lit "v") /\ tag_name_text (lit "h") /\ tag_name_text (lit "k") /\ tag_name_text (lit "p") /\ tag_name_text (lit "s") /\ tag_name_text (lit "t"))
    as (Nv & Nh & Nk & Np & Ns & Nt).
  { change (tag_name_text [118] /\ tag_name_text [104] /\ tag_name_text [107] /\ tag_name_text [112] /\ tag_name_text [115] /\ tag_name_text [116]).
    repeat split; apply N1; unfold alpha; lia. }
  split; [|split].
  - apply (written_list l []); [exact ofws_nil|discriminate|].
    apply Forall_app. split; [|apply Forall_app; split].
    + constructor; [cbn [fst snd]; split; [assumption|right; apply lit_value; [discriminate|reflexivity]]|].
      constructor; [cbn [fst snd]; split; [assumption|right; apply joined_visible; [destruct hs; [congruence|discriminate]|]]|].
      { apply Forall_map, Forall_forall. intros []; split; (discriminate || reflexivity). }
      constructor; [cbn [fst snd]; split; [assumption|right; destruct k; apply lit_value; (discriminate || reflexivity)]|].
      constructor; [cbn [fst snd]; split; [assumption|]|].
      { destruct p as [|c p']; [left; reflexivity|]. right. apply value_run; [discriminate|].
        apply Forall_forall. intros x Hx. rewrite (base64_det _ _ _ Hp (encode_base64_spec _ Hd)) in Hx. apply encode_base64_chars in Hx; [|exact Hd]. unfold valchar. lia. }
      constructor; [|constructor]. cbn [fst snd]. split; [assumption|right; apply joined_visible; [destruct ss; [congruence|discriminate]|]].
      apply Forall_map, Forall_forall. intros []; split; (discriminate || reflexivity).
    + unfold flags. destruct fs as [|f fs]; [constructor|]. constructor; [|constructor]. cbn [fst snd]. split; [assumption|].
      right. apply joined_visible; [discriminate|]. apply Forall_map, Forall_forall. intros []; split; (discriminate || reflexivity).
    + eapply Forall_impl; [|exact Hext]. cbn. tauto.
  - assert (exists r, map fst (known ++ flags) = map lit r /\ NoDup r /\ Forall (fun n => In (lit n) known_key_tags) r) as (r & E & Nr & Kr).
    { destruct fs; [exists ["v"; "h"; "k"; "p"; "s"]%string|exists ["v"; "h"; "k"; "p"; "s"; "t"]%string];
        (split; [reflexivity|]; split; [|repeat (constructor; [cbn; tauto|]); constructor]);
        repeat (constructor; [cbn; intuition discriminate|]); constructor. }
    unfold l. rewrite app_assoc, map_app, E. apply nodup_apart.
    + clear - Nr. induction Nr as [|x r X Nr IH]; cbn [map]; constructor; [|exact IH]. rewrite in_map_iff. intros (y & Y & Hy). apply X. apply lit_inj in Y. subst. exact Hy.
    + exact ND.
    + intros x Hx Hy. apply in_map_iff in Hx as (y & <- & Hy'). rewrite Forall_forall in Kr, Hext. apply Kr in Hy'. apply in_map_iff in Hy as (z & Z & Hz).
      apply Hext in Hz as (_ & _ & Hz). apply Hz. rewrite Z. exact Hy'.
  - assert (forall name, In (lit name) known_key_tags -> get name (map (fun t => mkTag (fst t) (snd t)) ext) = None) as NE.
    { intros name Hin. apply get_ext. intros n v Hi E. subst n. rewrite Forall_forall in Hext. apply Hext in Hi as (_ & _ & Hi). exact (Hi Hin). }
    unfold record_of. cbn [k_hash_algorithms k_key_type k_notes k_key_data k_service_types k_flags k_ext_tags].
    assert (forall name, get name (map (fun t => mkTag (fst t) (snd t)) (flags ++ ext)) =
      match get name (map (fun t => mkTag (fst t) (snd t)) flags) with None => get name (map (fun t => mkTag (fst t) (snd t)) ext) | x => x end) as GA.
    { intros name. unfold flags. destruct fs; [reflexivity|]. unfold get. cbn [map app tag_get tag_name tag_value fst snd].
      destruct (leqb (lit "t") (lit name)); reflexivity. }
    assert (forall name, name <> "t"%string -> In (lit name) known_key_tags -> get name (map (fun t => mkTag (fst t) (snd t)) (flags ++ ext)) = None) as GN.
    { intros name Hn Hin. rewrite GA, (NE name Hin). unfold flags. destruct fs; [reflexivity|]. unfold get. cbn [map tag_get tag_name tag_value fst snd].
      destruct (leqb (lit "t") (lit name)) eqn:L; [|reflexivity]. apply leqb_eq, lit_inj in L. congruence. }
    assert (get "h" (map (fun t => mkTag (fst t) (snd t)) l) = Some (colon_joined (map hash_alg_str hs))) as -> by reflexivity.
    assert (get "k" (map (fun t => mkTag (fst t) (snd t)) l) = Some (key_type_str k)) as -> by reflexivity.
    assert (get "p" (map (fun t => mkTag (fst t) (snd t)) l) = Some p) as -> by reflexivity.
    assert (get "s" (map (fun t => mkTag (fst t) (snd t)) l) = Some (colon_joined (map service_type_str ss))) as -> by reflexivity.
    assert (get "n" (map (fun t => mkTag (fst t) (snd t)) l) = None) as ->.
    { change (get "n" (map (fun t => mkTag (fst t) (snd t)) (flags ++ ext)) = None). apply GN; [discriminate|cbn; tauto]. }
    assert (get "t" (map (fun t => mkTag (fst t) (snd t)) l) = match fs with [] => None | _ :: _ => Some (colon_joined (map selector_flag_str fs)) end) as ->.
    { change (get "t" (map (fun t => mkTag (fst t) (snd t)) (flags ++ ext)) = match fs with [] => None | _ :: _ => Some (colon_joined (map selector_flag_str fs)) end).
      rewrite GA, NE by (cbn; tauto). unfold flags. destruct fs; reflexivity. }
    split; [|split; [|split; [|split; [|split; [|split; [|split]]]]]].
    + intros before t after E Ht.
      assert (before = []) as ->.
      { destruct before as [|b before]; [reflexivity|]. exfalso. apply (f_equal (@tl _)) in E. unfold l, known in E. cbn [map app fst snd tl] in E.
        assert (In t (map (fun t => mkTag (fst t) (snd t)) ((lit "h", colon_joined (map hash_alg_str hs)) :: (lit "k", key_type_str k) :: (lit "p", p)
          :: (lit "s", colon_joined (map service_type_str ss)) :: flags ++ ext))) as Hi.
        { cbn [map fst snd]. rewrite E. apply in_or_app. right. left. reflexivity. }
        apply in_map_iff in Hi as ([n v] & <- & Hi). cbn [tag_name fst] in Ht. subst n.
        repeat (destruct Hi as [Hi|Hi]; [discriminate Hi|]). apply in_app_or in Hi as [Hi|Hi].
        - unfold flags in Hi. destruct fs; [destruct Hi|]. destruct Hi as [Hi|[]]. discriminate Hi.
        - rewrite Forall_forall in Hext. apply Hext in Hi as (_ & _ & Hi). apply Hi. left. reflexivity. }
      split; [reflexivity|]. apply (f_equal (hd t)) in E. unfold l, known in E. cbn [map app fst snd hd] in E. subst t. reflexivity.
    + cbn [or_default]. split; [|exact Hh]. apply written_names; [exact Hh| |].
      * apply Forall_forall. intros h Hi. apply hash_written. intros Hf ->. exact (Hpre Hf Hi).
      * intros []; repeat split; (discriminate || reflexivity).
    + cbn [or_default]. destruct k; constructor; reflexivity.
    + exact I.
    + exists p. split; [reflexivity|]. apply (base64_ok _ p p Hd Hp). apply spaced_self.
    + cbn [or_default]. split; [|exact Hs]. apply written_names; [exact Hs| |].
      * apply Forall_forall. intros [] _; constructor; reflexivity.
      * intros []; repeat split; (discriminate || reflexivity).
    + destruct fs as [|f fs]; [reflexivity|]. cbn [or_default]. apply written_names; [discriminate| |].
      * apply Forall_forall. intros [] _; constructor; reflexivity.
      * intros []; repeat split; (discriminate || reflexivity).
    + unfold l. rewrite app_assoc. symmetry. apply ext_known.
      * unfold known, flags. apply Forall_app. split; [repeat (constructor; [cbn; tauto|]); constructor|].
        destruct fs; [constructor|]. repeat (constructor; [cbn; tauto|]); constructor.
      * eapply Forall_impl; [|exact Hext]. cbn. tauto.
Qed.

(** ** Form of the texts *)

Fixpoint spaced_once (after_space : bool) (s : str) : bool :=
  match s with
  | [] => negb after_space
  | c :: s' => (32 <=? c) && (c <=? 126) && negb (after_space && (c =? 32)) && spaced_once (c =? 32) s'
  end.

Lemma spaced_once_ok : forall s b, spaced_once b s = true ->
  Forall (fun c => 32 <= c <= 126) s /\ (forall x y, s <> x ++ [32; 32] ++ y) /\ (forall x, s <> x ++ [32]) /\ (b = true -> s <> [] /\ forall x, s <> 32 :: x).
Proof.
  induction s as [|c s IH]; intros b H.
  - split; [constructor|]. split; [intros [|] y; discriminate|]. split; [intros [|]; discriminate|]. intros ->. discriminate H.
  - cbn [spaced_once] in H. apply andb_true_iff in H as (H & H3). apply andb_true_iff in H as (H & H2). apply andb_true_iff in H as (H0 & H1).
    apply N.leb_le in H0, H1. destruct (IH _ H3) as (F & D & L & S). split; [constructor; [lia|exact F]|]. split; [|split].
    + intros [|a x] y E; cbn [app] in E.
      * injection E as -> E. destruct (S eq_refl) as (_ & S'). exact (S' y E).
      * injection E as -> E. exact (D x y E).
    + intros [|a x] E; cbn [app] in E.
      * injection E as -> ->. destruct (S eq_refl) as (S' & _). congruence.
      * injection E as -> E. exact (L x E).
    + intros ->. split; [discriminate|]. intros x E. injection E as -> ->. discriminate H2.
Qed.

Lemma line_ok : forall s, is_nil s = false -> spaced_once true s = true -> one_line s.
Proof.
  intros s N H. destruct (spaced_once_ok _ _ H) as (F & D & L & S). destruct (S eq_refl) as (S1 & S2). split; [exact S1|]. auto.
Qed.

Lemma texts_lines : 
  (forall e, one_line (verification_error_text e)) /\ (forall s, one_line (source_text s))
  /\ (forall e, one_line (request_error_text e)) /\ (forall e, one_line (signing_error_text e)).
Proof.
  assert (forall k, one_line (sig_kind_text k)) as K by (intros []; apply line_ok; reflexivity).
  split; [intros []; apply line_ok; reflexivity|]. split; [|split; intros []; apply line_ok; reflexivity].
  intros s; destruct s as [e|e|e|e]; [apply K|destruct e; apply line_ok; reflexivity..].
Qed.

(** errors of the parts *)
Lemma part_told : forall e e', part_text e = part_text e' -> e = e'.
Proof. intros [[]|[]|[]|[]] [[]|[]|[]|[]] H; (reflexivity || (vm_compute in H; discriminate H)). Qed.

Lemma part_lines : forall e, one_line (part_text e).
Proof. intros [[]|[]|[]|[]]; apply line_ok; reflexivity. Qed.

Lemma result_words : forall r w, dkim_result_str r = lit w <-> result_word r w.
Proof.
  intros r w. split.
  - intros H. destruct r; apply lit_inj in H; subst w; constructor.
  - intros []; reflexivity.
Qed.

Lemma tag_text : forall k n suffix x, sig_kind_text k = lit n ++ lit suffix -> rev (sig_kind_text k) = rev (lit suffix) ++ rev (lit x) -> n = x.
Proof.
  intros k n suffix x H X. apply (f_equal (@rev N)) in H. rewrite rev_app_distr, X in H. apply app_inv_head in H.
  apply (f_equal (@rev N)) in H. rewrite !rev_involutive in H. apply lit_inj in H. congruence.
Qed.

Lemma tag_text_not : forall k n suffix, sig_kind_text k = lit n ++ lit suffix ->
  firstn (length (lit suffix)) (rev (sig_kind_text k)) = rev (lit suffix).
Proof.
  intros k n suffix H. rewrite H, rev_app_distr. rewrite <- (rev_length (lit suffix)), firstn_app, firstn_all, Nat.sub_diag, app_nil_r. reflexivity.
Qed.

Lemma missing_text : forall k n, sig_kind_text k = lit n ++ lit "= tag missing" <-> tag_missing k n.
Proof.
  intros k n. split; [|intros []; reflexivity].
  intros H. destruct k; try (apply tag_text_not in H; vm_compute in H; discriminate H).
  - rewrite (tag_text _ _ _ "v" H) by reflexivity. constructor.
  - rewrite (tag_text _ _ _ "a" H) by reflexivity. constructor.
  - rewrite (tag_text _ _ _ "b" H) by reflexivity. constructor.
  - rewrite (tag_text _ _ _ "bh" H) by reflexivity. constructor.
  - rewrite (tag_text _ _ _ "d" H) by reflexivity. constructor.
  - rewrite (tag_text _ _ _ "h" H) by reflexivity. constructor.
  - rewrite (tag_text _ _ _ "s" H) by reflexivity. constructor.
Qed.

Lemma empty_text : forall k n, sig_kind_text k = lit n ++ lit "= tag empty" <-> tag_empty k n.
Proof.
  intros k n. split; [|intros []; reflexivity].
  intros H. destruct k; try (apply tag_text_not in H; vm_compute in H; discriminate H).
  - rewrite (tag_text _ _ _ "b" H) by reflexivity. constructor.
  - rewrite (tag_text _ _ _ "bh" H) by reflexivity. constructor.
  - rewrite (tag_text _ _ _ "h" H) by reflexivity. constructor.
Qed.

Lemma error_sources : forall e s, error_source e = Some s <->
  (exists x, e = DkimSignatureFormat x /\ s = SourceSignature x) \/ (exists x, e = KeyRecordFormat x /\ s = SourceKeyRecord x)
  \/ (exists x, e = VerificationFailure x /\ s = SourceCrypto x) \/ (exists x, e = Policy x /\ s = SourcePolicy x).
Proof.
  intros e s. split.
  - destruct e; try discriminate; intros H; injection H as <-; eauto 8.
  - intros [(x & -> & ->)|[(x & -> & ->)|[(x & -> & ->)|(x & -> & ->)]]]; reflexivity.
Qed.

Lemma pass_word : forall s, dkim_result_str (to_dkim_result s) = lit "pass" <-> s = Success.
Proof.
  intros s. rewrite result_words. split; [|intros ->; constructor]. intros H. inversion H as [|E| | | | |].
  destruct s as [|e]; [reflexivity|]. exfalso. destruct e; cbn in E; try discriminate E.
  all: match type of E with context [match ?k with _ => _ end] => destruct k; discriminate E end.
Qed.

Lemma record_told : forall pre r r' p p', writable pre r -> writable pre r' -> base64 (k_key_data r) p -> base64 (k_key_data r') p' ->
  written_tags (record_tags hash_alg_str key_type_str service_type_str selector_flag_str r p)
  = written_tags (record_tags hash_alg_str key_type_str service_type_str selector_flag_str r' p') -> r = r'.
Proof.
  intros pre r r' p p' W W' B B' E. pose proof (record_round_trip pre r p W B) as X. rewrite E in X.
  rewrite (record_round_trip pre r' p' W' B') in X. congruence.
Qed.
