(** Proofs: what two messages with the same signature have in common. *)

From Coq Require Import String List Lia NArith.
From Verif Require Import Base Utf8 Canon BodyHash Header Domain Signature KeyRecord Crypto TagList Format Sign Verify
  SpecText SpecCanon SpecHash SpecHeader SpecTag SpecDomain SpecSig SpecRecord SpecFormat SpecSign SpecOutput SpecVerify SpecEnd SpecDkim SpecCause SpecRsa SpecEd SpecReal SpecUnique
  SpecTransit SpecAuthor
  Concrete Utf8Proofs HeaderCanonProofs SigProofs SignProofs OutputChars OutputParse WidthProofs VerifyProofs VerifyFacts EndProofs DkimProofs ConcreteProofs RealProofs TransitProofs UniqueProofs UniqueEnd Lib.
Import ListNotations.
Open Scope N_scope.

(** ** The fields of one name among those covered *)

Lemma named_ext : forall n m hs, lower n = lower m -> named n hs = named m hs.
Proof. intros n m hs H. unfold named. apply filter_ext. intros f. unfold same_nameb. rewrite H. reflexivity. Qed.

Lemma firstn_S_nth : forall (A : Type) (l : list A) j k,
  match nth_error l j with Some x => [x] | None => [] end ++ firstn k (skipn (S j) l) = firstn (S k) (skipn j l).
Proof.
  intros A l. induction l as [|x l IH]; intros j k.
  - destruct j; cbn; destruct k; reflexivity.
  - destruct j; [reflexivity|]. cbn [nth_error skipn]. apply IH.
Qed.

Lemma named_kth : forall headers n k f, kth_from_bottom headers n k = Some f -> lower (fst f) = lower n.
Proof.
  intros headers n k f H. unfold kth_from_bottom in H. apply nth_error_In in H. apply filter_In in H as [_ H].
  apply same_nameb_iff. exact H.
Qed.

Lemma occurrences_cons : forall n x l, occurrences n (x :: l) = ((if same_nameb x n then 1 else 0) + occurrences n l)%nat.
Proof. intros n x l. unfold occurrences. cbn [filter]. destruct (same_nameb x n); reflexivity. Qed.

Lemma occurrences_snoc : forall n x l, occurrences n (l ++ [x]) = ((if same_nameb x n then 1 else 0) + occurrences n l)%nat.
Proof. intros n x l. unfold occurrences. rewrite filter_app, app_length. cbn [filter]. destruct (same_nameb x n); cbn [length]; lia. Qed.

Lemma named_contributed : forall n headers names before,
  named n (contributed headers before names) = firstn (occurrences n names) (skipn (occurrences n before) (named n (rev headers))).
Proof.
  intros n headers. induction names as [|x names IH]; intros before; [reflexivity|].
  cbn [contributed]. unfold named at 1. rewrite filter_app. fold (named n (contributed headers (before ++ [x]) names)).
  rewrite IH, occurrences_snoc, occurrences_cons. destruct (same_nameb x n) eqn:X.
  - apply same_nameb_iff in X. rewrite <- firstn_S_nth. cbn [Nat.add]. f_equal.
    unfold kth_from_bottom. rewrite Nat.sub_succ, Nat.sub_0_r.
    assert (occurrences x before = occurrences n before) as ->.
    { unfold occurrences. f_equal. apply filter_ext. intros y. unfold same_nameb. rewrite X. reflexivity. }
    fold (named x (rev headers)). rewrite (named_ext _ _ (rev headers) X).
    destruct (nth_error (named n (rev headers)) (occurrences n before)) as [f|] eqn:Nf; [|reflexivity].
    cbn [filter]. apply nth_error_In in Nf. apply filter_In in Nf as [_ ->]. reflexivity.
  - cbn [Nat.add]. destruct (kth_from_bottom headers x _) as [f|] eqn:Kf; [|reflexivity].
    cbn [filter]. apply named_kth in Kf. unfold same_nameb in *. rewrite Kf, X. reflexivity.
Qed.

Lemma canonical_name : forall alg f f', valid_name (fst f) -> valid_name (fst f') ->
  canonical_field alg f = canonical_field alg f' -> lower (fst f) = lower (fst f') /\ same_field alg f f'.
Proof.
  intros alg [n v] [n' v'] H H' C. cbn [fst snd] in *. destruct alg.
  - pose proof (proj1 (simple_header_iff n v n' v' H H')) as X. rewrite !canonicalize_header_spec in X by assumption.
    destruct (X C) as (-> & ->). split; reflexivity.
  - pose proof (proj1 (relaxed_header_iff n v n' v' H H')) as X. rewrite !canonicalize_header_spec in X by assumption.
    destruct (X C) as (Y & Z). split; [exact Y|]. split; assumption.
Qed.

Lemma named_canonical : forall alg n l l', Forall (fun f => valid_name (fst f)) l -> Forall (fun f => valid_name (fst f)) l' ->
  map (canonical_field alg) l = map (canonical_field alg) l' -> Forall2 (same_field alg) (named n l) (named n l').
Proof.
  intros alg n. induction l as [|f l IH]; intros [|f' l'] V V' M; cbn [map] in M; try discriminate M; [constructor|].
  injection M as M0 M. inversion V as [|? ? V1 V2]; subst. inversion V' as [|? ? V1' V2']; subst.
  destruct (canonical_name _ _ _ V1 V1' M0) as (L & S). unfold named. cbn [filter].
  assert (same_nameb (fst f) n = same_nameb (fst f') n) as -> by (unfold same_nameb; rewrite L; reflexivity).
  destruct (same_nameb (fst f') n); [constructor; [exact S|]|]; exact (IH _ V2 V2' M).
Qed.

Lemma named_rev : forall n hs, named n (rev hs) = rev (named n hs).
Proof.
  intros n. induction hs as [|f hs IH]; [reflexivity|]. cbn [rev]. unfold named in *. rewrite filter_app, IH. cbn [filter].
  destruct (same_nameb (fst f) n); [reflexivity|apply app_nil_r].
Qed.

Lemma Forall2_rev : forall (A B : Type) (R : A -> B -> Prop) l l', Forall2 R l l' -> Forall2 R (rev l) (rev l').
Proof. intros A B R l l' H. induction H; [constructor|]. cbn [rev]. apply Forall2_app; [assumption|]. constructor; [assumption|constructor]. Qed.

Lemma occurrences_named : forall n hs, occurrences n (map fst hs) = length (named n hs).
Proof. intros n hs. unfold occurrences, named. induction hs as [|f hs IH]; [reflexivity|]. cbn [map filter]. destruct (same_nameb (fst f) n); cbn [length]; rewrite IH; reflexivity. Qed.

Lemma lowest_all : forall n k hs, (occurrences n (map fst hs) <= k)%nat -> lowest k n hs = rev (named n hs).
Proof. intros n k hs H. unfold lowest. rewrite named_rev. apply firstn_all2. rewrite rev_length, <- occurrences_named. exact H. Qed.

Section Real.
Variables (pre : bool) (m : N) (idna : Idna).
Notation E := (real_env pre m idna).
Notation sha := (hash_fn real_crypto).

Lemma under_verified : forall config headers body name value sig k,
  verified_under E config headers body name value sig k -> verified E headers body name value sig k.
Proof. intros config headers body name value sig k (w & zone & chunks & rs & i & r & H). exists w, zone, config, chunks, rs, i, r. exact H. Qed.

Lemma under_policy : forall config headers body name value sig k, verified_under E config headers body name value sig k ->
  (forall n, among n (cf_headers_forbidden_to_be_unsigned config) -> (occurrences n (map fst headers) <= occurrences n (s_signed_headers sig))%nat)
  /\ sha (alg_hash (s_algorithm sig)) (covered_body sig body) = s_body_hash sig
  /\ (whole_body config sig -> covered_body sig body = canonical_body (c_body (s_canonicalization sig)) body).
Proof.
  intros config headers body name value sig k (w & zone & chunks & rs & i & r & W & Z & F & -> & V & R & S & Sg & K).
  destruct (real_success _ _ _ _ _ _ _ _ _ _ _ _ _ W Z F V R) as (_ & X & _). destruct (X S) as (sig1 & k1 & Sg1 & K1 & Va).
  assert (sig1 = sig) as -> by congruence.
  destruct Va as (s1 & tags1 & rt & rtags & data1 & rest & _ & _ & _ & _ & G & _ & _ & _ & _ & _ & _ & _ & _ & _ & B & Fo).
  destruct G as (_ & G & _). split.
  - intros n (x & Ix & Sx). specialize (G _ Ix). unfold same_name in Sx.
    assert (forall l, occurrences n l = occurrences x l) as Y. { intros l. unfold occurrences. f_equal. apply filter_ext. intros y. unfold same_nameb. rewrite Sx. reflexivity. }
    rewrite !Y. exact G.
  - destruct B as (covered & B1 & B2 & B3).
    assert (covered_body sig (concat chunks) = covered) as Ec.
    { unfold covered_body. cbv zeta. rewrite B1. destruct (s_body_length sig) as [l|].
      - rewrite <- B3, Nnat.Nat2N.id, firstn_app, Nat.sub_diag, firstn_all. cbn. apply app_nil_r.
      - rewrite B3. apply app_nil_r. }
    rewrite Ec. split; [exact B2|]. intros Wh. rewrite B1. destruct Wh as [Wh|Wh].
    + rewrite (Fo Wh), app_nil_r. reflexivity.
    + rewrite Wh in B3. rewrite B3, app_nil_r. reflexivity.
Qed.

Section Two.
Variables (config config' : Config) (headers headers' : list HeaderField) (body body' : list byte) (name name' : str) (value value' : list byte)
  (sig sig' : DkimSig) (k : KeyRecord) (data : list byte).
Hypothesis IO : idna_ok idna.
Hypothesis V : verified_under E config headers body name value sig k.
Hypothesis V' : verified_under E config' headers' body' name' value' sig' k.
Hypothesis D : signed_text E headers name value sig data.
Hypothesis D' : signed_text E headers' name' value' sig' data.

Lemma two_tags : same_tags_of sig sig' /\ covered_fields headers sig = covered_fields headers' sig'.
Proof.
  destruct (same_text _ _ _ _ _ _ _ _ _ _ _ _ _ _ _ IO (under_verified _ _ _ _ _ _ _ V) (under_verified _ _ _ _ _ _ _ V') D D') as (T & C & _). auto.
Qed.

Lemma two_lowest : forall n, let c := occurrences n (s_signed_headers sig) in
  Forall2 (same_field (c_header (s_canonicalization sig))) (lowest c n headers) (lowest c n headers').
Proof.
  intros n c. destruct two_tags as (T & C). destruct T as (_ & _ & T3 & _ & T5 & _).
  unfold covered_fields in C. rewrite <- T3, <- T5 in C.
  assert (forall h, header_fields h -> Forall (fun f => valid_name (fst f)) (contributed h [] (s_signed_headers sig))) as VN.
  { intros h Hh. apply valid_names in Hh. rewrite Forall_forall in Hh |- *. intros f If. apply Hh. eapply ShaEndProofs.contributed_in. exact If. }
  pose proof (named_canonical _ n _ _ (VN _ ltac:(destruct V as (? & ? & ? & ? & ? & ? & _ & _ & F & _); exact F))
    (VN _ ltac:(destruct V' as (? & ? & ? & ? & ? & ? & _ & _ & F & _); exact F)) C) as X.
  rewrite !named_contributed in X. exact X.
Qed.

Lemma two_named : forall n, among n (cf_headers_forbidden_to_be_unsigned config) -> among n (cf_headers_forbidden_to_be_unsigned config') ->
  Forall2 (same_field (c_header (s_canonicalization sig))) (named n headers) (named n headers').
Proof.
  intros n A A'. destruct two_tags as ((_ & _ & _ & _ & T5 & _) & _).
  pose proof (proj1 (under_policy _ _ _ _ _ _ _ V) n A) as O. pose proof (proj1 (under_policy _ _ _ _ _ _ _ V') n A') as O'.
  rewrite <- T5 in O'. pose proof (two_lowest n) as X. cbv zeta in X. rewrite !lowest_all in X by assumption.
  apply Forall2_rev in X. rewrite !rev_involutive in X. exact X.
Qed.

Lemma two_bodies :
  (covered_body sig body = covered_body sig' body'
   /\ (whole_body config sig -> whole_body config' sig' ->
       canonical_body (c_body (s_canonicalization sig)) body = canonical_body (c_body (s_canonicalization sig)) body'))
  \/ collision E (alg_hash (s_algorithm sig)) (covered_body sig body) (covered_body sig' body').
Proof.
  destruct two_tags as ((T1 & T2 & T3 & _) & _).
  destruct (under_policy _ _ _ _ _ _ _ V) as (_ & B & Wh). destruct (under_policy _ _ _ _ _ _ _ V') as (_ & B' & Wh').
  destruct (list_eq_dec N.eq_dec (covered_body sig body) (covered_body sig' body')) as [Eq|Ne]; [left|right].
  - split; [exact Eq|]. intros W W'. rewrite <- (Wh W), Eq, (Wh' W'), T3. reflexivity.
  - split; [exact Ne|]. rewrite <- T1 in B'. cbn [env_crypto real_env]. rewrite B, B', T2. reflexivity.
Qed.
End Two.

(** ** The same signature *)

Section Stands.
Variables (config config' : Config) (headers headers' : list HeaderField) (body body' : list byte) (name name' : str) (value value' : list byte)
  (sig sig' : DkimSig) (k : KeyRecord) (data data' : list byte).
Hypothesis IO : idna_ok idna.
Hypothesis V : verified_under E config headers body name value sig k.
Hypothesis V' : verified_under E config' headers' body' name' value' sig' k.
Hypothesis D : signed_text E headers name value sig data.
Hypothesis D' : signed_text E headers' name' value' sig' data'.
Hypothesis S : s_signature_data sig' = s_signature_data sig.

Lemma stands_rsa : k_key_type k = Rsa -> data = data' \/ collision E (alg_hash (s_algorithm sig)) data data'.
Proof.
  intros T. destruct (rsa_stands_for _ _ _ _ _ _ _ _ _ _ _ _ _ _ _ _ (under_verified _ _ _ _ _ _ _ V) (under_verified _ _ _ _ _ _ _ V') D D' S T) as (A & H).
  destruct (list_eq_dec N.eq_dec data data') as [Eq|Ne]; [left; exact Eq|right; split; [exact Ne|rewrite <- A in H; exact H]].
Qed.

Theorem author_covered : k_key_type k = Rsa ->
  (forall n, let c := occurrences n (s_signed_headers sig) in
     Forall2 (same_field (c_header (s_canonicalization sig))) (lowest c n headers) (lowest c n headers'))
  \/ collision E (alg_hash (s_algorithm sig)) data data'.
Proof.
  intros T. destruct (stands_rsa T) as [Eq|C]; [left|right; exact C]. rewrite <- Eq in D'. exact (two_lowest _ _ _ _ _ _ _ _ _ _ _ _ _ _ IO V V' D D').
Qed.

Theorem author_protected : k_key_type k = Rsa ->
  (forall n, among n (cf_headers_forbidden_to_be_unsigned config) -> among n (cf_headers_forbidden_to_be_unsigned config') ->
     Forall2 (same_field (c_header (s_canonicalization sig))) (named n headers) (named n headers'))
  \/ collision E (alg_hash (s_algorithm sig)) data data'.
Proof.
  intros T. destruct (stands_rsa T) as [Eq|C]; [left|right; exact C]. rewrite <- Eq in D'. exact (two_named _ _ _ _ _ _ _ _ _ _ _ _ _ _ IO V V' D D').
Qed.

Theorem author_body : k_key_type k = Rsa -> let alg := c_body (s_canonicalization sig) in
  (covered_body sig body = covered_body sig' body'
   /\ (whole_body config sig -> whole_body config' sig' ->
       canonical_body alg body = canonical_body alg body' /\ same_body alg body body'))
  \/ collision E (alg_hash (s_algorithm sig)) data data'
  \/ collision E (alg_hash (s_algorithm sig)) (covered_body sig body) (covered_body sig' body').
Proof.
  intros T alg. destruct (stands_rsa T) as [Eq|C]; [|right; left; exact C]. rewrite <- Eq in D'.
  destruct (two_bodies _ _ _ _ _ _ _ _ _ _ _ _ _ _ IO V V' D D') as [(A & B)|C]; [left|right; right; exact C].
  split; [exact A|]. intros W W'. specialize (B W W'). split; [exact B|]. apply canonical_same_body. exact B.
Qed.

Theorem author_ed : forall key public x x', ed_public_key sha512 key public -> ed_key_of k public ->
  little_endian (sha512 (firstn 32 (s_signature_data sig) ++ public ++ sha (alg_hash (s_algorithm sig)) data)) x ->
  little_endian (sha512 (firstn 32 (s_signature_data sig) ++ public ++ sha (alg_hash (s_algorithm sig')) data')) x' ->
  ((forall n, let c := occurrences n (s_signed_headers sig) in
      Forall2 (same_field (c_header (s_canonicalization sig))) (lowest c n headers) (lowest c n headers'))
   /\ (forall n, among n (cf_headers_forbidden_to_be_unsigned config) -> among n (cf_headers_forbidden_to_be_unsigned config') ->
         Forall2 (same_field (c_header (s_canonicalization sig))) (named n headers) (named n headers'))
   /\ ((covered_body sig body = covered_body sig' body'
        /\ (whole_body config sig -> whole_body config' sig' ->
            canonical_body (c_body (s_canonicalization sig)) body = canonical_body (c_body (s_canonicalization sig)) body'))
       \/ collision E (alg_hash (s_algorithm sig)) (covered_body sig body) (covered_body sig' body')))
  \/ data <> data' /\ x mod ed_order = x' mod ed_order.
Proof.
  intros key public x x' P K X X'.
  pose proof (ed_stands_for _ _ _ _ _ _ _ _ _ _ _ _ _ _ _ _ (under_verified _ _ _ _ _ _ _ V) (under_verified _ _ _ _ _ _ _ V') D D' S key public x x' P K X X') as H.
  destruct (list_eq_dec N.eq_dec data data') as [Eq|Ne]; [left|right; split; [exact Ne|exact H]]. rewrite <- Eq in D'.
  split; [exact (two_lowest _ _ _ _ _ _ _ _ _ _ _ _ _ _ IO V V' D D')|].
  split; [exact (two_named _ _ _ _ _ _ _ _ _ _ _ _ _ _ IO V V' D D')|].
  exact (two_bodies _ _ _ _ _ _ _ _ _ _ _ _ _ _ IO V V' D D').
Qed.
End Stands.

(** ** A field put on top of a verified message *)

Lemma signature_fields_shift : forall hs i, signature_fields (S i) hs = map (fun x => (S (fst x), snd x)) (signature_fields i hs).
Proof.
  induction hs as [|f hs IH]; intros i; [reflexivity|]. cbn [signature_fields]. rewrite map_app, <- IH. f_equal.
  destruct (same_nameb _ _); reflexivity.
Qed.

Lemma examined_on_top : forall config f hs k x, ~ same_name (fst f) (lit "DKIM-Signature") -> nth_error (examined config hs) k = Some x ->
  nth_error (examined config (f :: hs)) k = Some (S (fst x), snd x).
Proof.
  intros config f hs k x Nn H. unfold examined in *. cbn [signature_fields].
  destruct (same_nameb (fst f) (lit "DKIM-Signature")) eqn:X; [apply same_nameb_iff in X; contradiction|]. cbn [app].
  rewrite signature_fields_shift, firstn_map. apply (map_nth_error (fun x => (S (fst x), snd x))). exact H.
Qed.

Lemma under_on_top : forall config f headers body name value sig k, verified_under E config headers body name value sig k ->
  header_fields (f :: headers) -> ~ same_name (fst f) (lit "DKIM-Signature") ->
  ~ among (fst f) (s_signed_headers sig) -> ~ among (fst f) (cf_headers_forbidden_to_be_unsigned config) ->
  verified_under E config (f :: headers) body name value sig k.
Proof.
  intros config f headers body name value sig k (w & zone & chunks & rs & i & r & W & Z & F & -> & V & R & S & Sg & K) F' N1 N2 N3.
  set (w' := mkWorld (w_resolver w) (fun j => w_clock w (pred j)) (w_query_order w) (w_hasher_order w)).
  destruct R as (kk & K1 & K2). pose proof (examined_on_top config f headers kk _ N1 K1) as K1'. cbn [fst snd] in K1'.
  assert (world_ok w') as W' by exact W.
  destruct (verify_message_cases E w' (f :: headers) config chunks W' F') as [[X _]|(_ & rs' & V' & L)]; [rewrite X in K1'; destruct kk; discriminate K1'|].
  assert (exists r', nth_error rs' kk = Some r') as (r' & K2').
  { destruct (nth_error rs' kk) as [r'|] eqn:Y; [eauto|]. apply nth_error_None in Y. apply (f_equal (@length _)) in L. rewrite !map_length in L.
    rewrite L in Y. apply nth_error_None in Y. rewrite Y in K1'. discriminate K1'. }
  pose proof (steady_evaluation E w headers config chunks zone rs W F Z V) as Ev.
  pose proof (steady_evaluation E w' (f :: headers) config chunks zone rs' W' F' Z V') as Ev'.
  assert (result_for config headers rs i name value r) as R by (exists kk; auto).
  assert (result_for config (f :: headers) rs' (Datatypes.S i) name value r') as R' by (exists kk; auto).
  destruct (real_success _ _ _ _ _ _ _ _ _ _ _ _ _ W Z F V R) as (_ & X & _). destruct (X S) as (sig1 & k1 & Sg1 & K1r & Va).
  assert (sig1 = sig) as -> by congruence.
  destruct Va as (s1 & tags1 & rt & rtags & data1 & rest & Sc & Es & Ta & So & _).
  assert (signature_read E value s1 (Ok sig)) as SR. { rewrite Es. apply sgr_text; [exact Sc|reflexivity|]. apply sig_ok_iff. exists tags1. rewrite <- tags_of_iff. auto. }
  assert (r' = moved (Datatypes.S i) r) as ->.
  { apply (transit_on_top E w w' config headers [f] chunks _ rs rs' i name value r r' s1 sig Ev R Ev' R' eq_refl SR).
    - intros n g In_ [<-|[]] Sn. exfalso. apply N2. exists n. auto.
    - intros n g In_ [<-|[]] Sn. apply N3. exists n. auto. }
  exists w', zone, chunks, rs', (Datatypes.S i), (moved (Datatypes.S i) r). auto 12.
Qed.
End Real.

(** ** Messages signed in the default way *)

Section WithEnv.
Variable E : Env.

Lemma fresh_read : forall d s alg key headers chunks clock j o, idna_ok (env_idna E) -> crypto_nonempty (env_crypto E) ->
  readable_output E headers chunks clock j (request_new E d s alg key) o ->
  exists sig, signature_read E (as_bytes (so_header_value o)) (so_header_value o) (Ok sig)
    /\ s_algorithm sig = alg /\ s_body_length sig = None /\ forall n, In n (s_signed_headers sig) -> In (lower n) signed_by_default.
Proof.
  intros d s alg key headers chunks clock j o IO NE (HO & HR & HT & HZ & HX).
  destruct (signed_output_of _ _ _ _ _ _ _ HO) as (pre & post & n & b64 & O).
  pose proof (output_scalar _ _ _ _ _ _ _ _ _ _ _ _ IO O HR HX) as Sc.
  destruct (output_parses E _ _ _ _ _ _ _ _ _ _ _ IO NE O HR HT HZ) as (sig & P & W).
  destruct W as (W1 & _ & _ & _ & _ & W6 & _ & W8 & _).
  exists sig. split; [apply sgr_text; [exact Sc|reflexivity|exact P]|].
  destruct (request_parts _ _ _ _ _ _ _ HO) as (hashed & names & _ & Nm & Qn & Qa & _).
  split; [rewrite W1; exact Qa|]. split; [rewrite W8; exact (fresh_length _ _ _ _ _ _ _ _ _ _ HO)|].
  rewrite W6, Qn. inversion Nm as [fs _ Sel E1|]; [subst|discriminate].
  intros x Hx. apply In_rev in Hx. apply in_map_iff in Hx as (h & <- & Hin).
  clear - Sel Hin. induction Sel; [destruct Hin| |auto]. destruct Hin as [<-|Hin]; auto.
Qed.
End WithEnv.
