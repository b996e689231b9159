(** Proofs that verification decides the validity of DKIM signatures. *)

From Coq Require Import String List.
From Verif Require Import Base Utf8 Canon BodyHash Header Domain Signature KeyRecord Crypto TagList Format Sign Verify
  SpecText SpecCanon SpecHash SpecHeader SpecTag SpecDomain SpecSig SpecRecord SpecFormat SpecSign SpecOutput SpecVerify SpecEnd SpecDkim
  TagListProofs SigProofs RecordProofs OriginalProofs VerifyProofs VerifyKeys VerifyRun VerifyFacts EndProofs Lib.
Import ListNotations.
Open Scope N_scope.

(** ** The text that was signed is determined *)

Lemma split_first : forall s0 t a x, ~ In 59 s0 -> s0 ++ 59 :: t = a ++ 59 :: x ->
  (a = s0 /\ t = x) \/ exists a', a = s0 ++ 59 :: a' /\ t = a' ++ 59 :: x.
Proof.
  induction s0 as [|c s0 IH]; intros t a x N H.
  - destruct a as [|d a]; cbn [app] in H.
    + left. split; [reflexivity|]. exact (f_equal (@tl _) H).
    + injection H as H1 H2. subst d. right. exists a. auto.
  - destruct a as [|d a]; cbn [app] in H; injection H as H1 H2.
    + exfalso. apply N. left. exact H1.
    + subst d. destruct (IH t a x) as [[-> ->]|(a' & -> & ->)]; [intros X; apply N; right; exact X|exact H2|left; auto|right; exists a'; auto].
Qed.

Lemma spec_name : forall p n v f1 f2 y z, tag_spec_text p n v -> ofws f1 -> ofws f2 ->
  p ++ z = f1 ++ lit "b" ++ f2 ++ [61] ++ y -> n = lit "b".
Proof.
  intros p n v f1 f2 y z H F1 F2 Eq.
  assert (exists rest, strip_tag_name_and_equals (p ++ z) = Some (rest, n)) as (rest & S).
  { destruct H; eexists; repeat rewrite <- app_assoc; apply name_equals_complete; assumption. }
  rewrite Eq, name_equals_complete in S by (auto using b_name). injection S as _ <-. reflexivity.
Qed.

Lemma before_b : forall s tags, tag_list_text s tags -> NoDup (map fst tags) -> forall a f1 f2 y, ofws f1 -> ofws f2 ->
  (a = [] \/ exists a', a = a' ++ [59]) -> s = a ++ f1 ++ lit "b" ++ f2 ++ [61] ++ y ->
  In (lit "b") (map fst tags) /\ others a.
Proof.
  intros s tags H. induction H; intros ND a f1 f2 y F1 F2 Ha Eq.
  - destruct Ha as [->|(a' & ->)].
    + split; [|constructor]. left. cbn [fst]. eapply (spec_name s n v f1 f2 y []); try eassumption. rewrite app_nil_r. exact Eq.
    + exfalso. apply (spec_no_semi _ _ _ H). rewrite Eq, !in_app_iff. left. right. left. reflexivity.
  - destruct Ha as [->|(a' & ->)].
    + split; [|constructor]. left. cbn [fst]. eapply (spec_name s n v f1 f2 y); eassumption.
    + exfalso. rewrite <- app_assoc in Eq. cbn [app] in Eq.
      apply split_first in Eq; [|exact (spec_no_semi _ _ _ H)]. destruct Eq as [[_ X]|(a2 & _ & X)].
      * destruct f1; discriminate X.
      * destruct a2; discriminate X.
  - cbn [map fst] in ND. inv ND. destruct Ha as [->|(a' & ->)].
    + split; [|constructor]. left. cbn [fst]. eapply (spec_name s n v f1 f2 y); eassumption.
    + rewrite <- app_assoc in Eq. cbn [app] in Eq. apply split_first in Eq; [|exact (spec_no_semi _ _ _ H)].
      destruct Eq as [[-> X]|(a2 & -> & X)].
      * destruct (IHtag_list_text H4 [] f1 f2 y F1 F2) as [I _]; [left; reflexivity|exact X|].
        split; [right; exact I|]. apply (ot_cons s n v []); [exact H| |constructor]. intros ->. apply H3. exact I.
      * destruct (IHtag_list_text H4 (a2 ++ [59]) f1 f2 y F1 F2) as [I O]; [right; exists a2; reflexivity|rewrite X, <- app_assoc; reflexivity|].
        split; [right; exact I|]. rewrite <- app_assoc. apply (ot_cons s n v (a2 ++ [59])); [exact H| |exact O]. intros ->. apply H3. exact I.
Qed.

Theorem removed_unique : forall s tags v s', tag_list_from_str s = Ok tags -> get "b" tags = Some v ->
  signature_removed s v s' -> s' = make_original_dkim_sig s.
Proof.
  intros s tags v s' H G (a & f1 & f2 & f3 & f4 & c & F1 & F2 & F3 & F4 & Ha & Hc & Es & ->).
  apply tag_list_ok in H as [T ND].
  destruct (before_b _ _ T ND a f1 f2 (f3 ++ v ++ f4 ++ c) F1 F2 Ha Es) as [_ O].
  destruct (tag_list_b s _ v T ND) as (_ & _ & _ & _ & _ & _ & _ & _ & _ & _ & _ & Nv & _).
  { apply tag_get_In in G; [|rewrite <- pairs_names; exact ND]. unfold pairs_of. apply in_map_iff. exists (mkTag (lit "b") v). auto. }
  subst s. replace (a ++ f1 ++ lit "b" ++ f2 ++ [61] ++ f3 ++ v ++ f4 ++ c) with (a ++ f1 ++ lit "b" ++ f2 ++ [61] ++ (f3 ++ v ++ f4) ++ c)
    by (rewrite <- !app_assoc; reflexivity).
  symmetry. apply original_at_b; try assumption. rewrite !in_app_iff. intros [X|[X|X]]; try (eapply ofws_no_semi in X; [exact X|assumption]). tauto.
Qed.

Lemma tags_of_iff : forall s tags, tags_of s tags <-> tag_list_from_str s = Ok tags.
Proof. intros s tags. rewrite tag_list_ok, pairs_names. reflexivity. Qed.

Lemma signature_has_b : forall pre idna tags sig, signature_of pre idna tags sig -> exists v, get "b" tags = Some v.
Proof. intros pre idna tags sig H. unfold signature_of in H. decompose [and ex] H. eauto. Qed.

Section WithEnv.
Variable E : Env.
Notation C := (env_crypto E).
Notation idna := (env_idna E).

Lemma signed_data_iff : forall headers sig name s tags data, tags_of s tags -> signature_of (env_pre E) idna tags sig ->
  (signed_data headers sig name s tags data <->
   data = header_hash_input (c_header (s_canonicalization sig)) headers (s_signed_headers sig)
          ++ canonical_field (c_header (s_canonicalization sig)) (name, as_bytes (make_original_dkim_sig s))).
Proof.
  intros headers sig name s tags data T S. apply tags_of_iff in T. split.
  - intros (v & s' & G & R & ->). rewrite (removed_unique _ _ _ _ T G R). reflexivity.
  - intros ->. destruct (signature_has_b _ _ _ _ S) as (v & G). exists v, (make_original_dkim_sig s).
    split; [exact G|]. split; [eapply original_spec; eassumption|reflexivity].
Qed.

Lemma read_iff : forall value s sig, signature_read E value s (Ok sig) <->
  Forall is_scalar s /\ value = as_bytes s /\ exists tags, tags_of s tags /\ signature_of (env_pre E) idna tags sig.
Proof.
  intros value s sig. split.
  - intros H. inversion H; subst. split; [assumption|]. split; [reflexivity|]. apply sig_ok_iff in H2 as (tags & T & S). exists tags. rewrite tags_of_iff. auto.
  - intros (Sc & -> & tags & T & S). apply sgr_text; [exact Sc|reflexivity|]. apply sig_ok_iff. exists tags. rewrite <- tags_of_iff. auto.
Qed.

Lemma body_hashed_iff : forall config sig body, body_matches E config sig body <->
  exists rest, body_hashed E canonical_body sig body rest /\ (cf_forbid_unsigned_content config = true -> rest = []).
Proof.
  intros config sig body. unfold body_matches, body_hashed. destruct (s_body_length sig) as [l|]; split.
  - intros (covered & rest & H1 & H2 & H3 & H4). exists rest. split; [exists covered|]; auto.
  - intros (rest & (covered & H1 & H2 & H3) & H4). exists covered, rest. auto.
  - intros H. exists []. split; [|auto]. eexists. rewrite app_nil_r. auto.
  - intros (rest & (covered & H1 & H2 & ->) & _). rewrite app_nil_r in H1. rewrite H1. exact H2.
Qed.

Lemma accepts_key : forall headers config sig name s tags txt k, tags_of s tags -> signature_of (env_pre E) idna tags sig ->
  (record_accepts E headers config sig name s txt k <->
   exists bs key data, txt = Ok bs /\ key_for E sig config bs k key /\ signed_data headers sig name s tags data
     /\ verifies E key (alg_hash (s_algorithm sig)) (hash_fn C (alg_hash (s_algorithm sig)) data) (s_signature_data sig)).
Proof.
  intros headers config sig name s tags txt k T S. split.
  - intros (rt & key & R1 & R2 & R3 & R4 & R5 & R6 & R7 & R8 & R9). inversion R1; subst. eexists _, key, _.
    split; [reflexivity|]. split; [|split; [apply signed_data_iff; [exact T|exact S|reflexivity]|exact R9]].
    unfold key_for. apply record_ok_iff in R2 as (ts & Q & R). repeat split; try assumption.
    exists rt, ts. rewrite tags_of_iff. auto.
  - intros (bs & key & data & -> & ((rt & ts & Q1 & -> & Q2 & Q3) & R3 & R4 & R5 & R6 & R7 & R8) & D & V).
    apply (signed_data_iff _ _ _ _ _ _ T S) in D. exists rt, key. split; [constructor; exact Q1|].
    split; [apply record_ok_iff; exists ts; rewrite <- tags_of_iff; auto|]. repeat split; try assumption.
    unfold signed_digest. rewrite <- D. exact V.
Qed.

Lemma verdict_signature : forall answer headers config now body i name value r s sig,
  verdict E answer headers config now body i name value r -> signature_read E value s (Ok sig) -> vr_signature r = Some sig.
Proof.
  intros answer headers config now body i name value r s sig V R.
  destruct V as [s1 e H|s1 sig1 e H _|s1 sig1 p k e [H _] _ _ _|s1 sig1 p [H _] _ _|s1 sig1 p txts r0 e [H _] _ _ _|s1 sig1 p txts r0 [H _] _ _ _];
    destruct (signature_read_det _ _ _ _ _ _ H R) as [_ X]; cbn [vr_signature]; congruence.
Qed.

Section WithZone.
Variables (zone : str -> IoResult (list (IoResult (list byte)))) (headers : list HeaderField) (config : Config) (now : N)
  (body : list byte) (i : nat) (name : str) (value : list byte) (r : VerificationResult).
Hypothesis Hh : header_fields headers.
Hypothesis Hn : field_name name.
Hypothesis V : verdict E (fun p => zone (key_name p)) headers config now body i name value r.

Lemma valid_success : forall sig k, valid_dkim E canonical_body zone config now headers body name value sig k ->
  vr_status r = Success /\ vr_signature r = Some sig.
Proof.
  intros sig k (s & tags & txt & key & data & rest & H1 & H2 & H3 & H4 & H5 & (d & sl & txts & P1 & P2 & P3 & P4) & H7 & H8 & H9 & H10 & H11).
  assert (signature_read E value s (Ok sig)) as R by (apply read_iff; eauto).
  split; [|eapply verdict_signature; eassumption]. apply (verdict_success _ _ _ _ _ _ _ _ _ _ Hh Hn V).
  exists sig, s, (d, sl), txts, (Ok txt), k. split; [exact R|]. split; [exact H5|]. split; [split; assumption|]. split; [exact P3|]. split; [exact P4|].
  split; [|apply body_hashed_iff; eauto]. apply (accepts_key _ _ _ _ _ tags); try assumption. exists txt, key, data. auto.
Qed.

Lemma success_valid : vr_status r = Success ->
  exists sig k, vr_signature r = Some sig /\ vr_key_record r = Some k
    /\ valid_dkim E canonical_body zone config now headers body name value sig k.
Proof.
  intros S. destruct (verdict_success_record _ _ _ _ _ _ _ _ _ _ V S) as (s & sig & txt & k & p & txts & R & G & Vs & Vk & L & A & I & Acc & B).
  exists sig, k. split; [exact Vs|]. split; [exact Vk|]. apply read_iff in R as (Sc & -> & tags & T & So).
  apply (accepts_key _ _ _ _ _ tags) in Acc; try assumption. destruct Acc as (bs & key & data & -> & K & D & Ve).
  apply body_hashed_iff in B as (rest & B1 & B2). exists s, tags, bs, key, data, rest.
  assert (published E zone sig bs) as P by (destruct L as [L1 L2], p as [d sl]; exists d, sl, txts; auto).
  auto 15.
Qed.

End WithZone.

(** ** Forms of bodies *)

Lemma rfc_regular : forall alg body, regular_body alg body -> canonical_body alg body = rfc_body alg body.
Proof.
  intros [] body H; cbn [regular_body canonical_body rfc_body] in *; [unfold impl_simple_body|unfold impl_relaxed_body]; rewrite H; reflexivity.
Qed.

Lemma body_hashed_ext : forall c1 c2 sig body rest,
  c1 (c_body (s_canonicalization sig)) body = c2 (c_body (s_canonicalization sig)) body ->
  body_hashed E c1 sig body rest -> body_hashed E c2 sig body rest.
Proof. intros c1 c2 sig body rest H. unfold body_hashed. rewrite H. auto. Qed.

Lemma valid_ext : forall c1 c2 zone config now headers body name value sig k,
  c1 (c_body (s_canonicalization sig)) body = c2 (c_body (s_canonicalization sig)) body ->
  valid_dkim E c1 zone config now headers body name value sig k -> valid_dkim E c2 zone config now headers body name value sig k.
Proof.
  intros c1 c2 zone config now headers body name value sig k H (s & tags & txt & key & data & rest & H1 & H2 & H3 & H4 & H5 & H6 & H7 & H8 & H9 & H10 & H11).
  exists s, tags, txt, key, data, rest. repeat (split; [assumption|]). split; [|assumption]. eapply body_hashed_ext; eassumption.
Qed.

Theorem success_exact : forall w headers config chunks zone rs i name value r, world_ok w -> steady (w_resolver w) zone ->
  header_fields headers -> verify_message E w headers config chunks = Val (Some rs) -> result_for config headers rs i name value r ->
  let valid := valid_dkim E canonical_body zone config (w_clock w i) headers (concat chunks) name value in
  (vr_status r = Success <-> exists sig k, valid sig k)
  /\ (vr_status r = Success -> exists sig k, vr_signature r = Some sig /\ vr_key_record r = Some k /\ valid sig k)
  /\ (forall sig k, valid sig k -> vr_signature r = Some sig).
Proof.
  intros w headers config chunks zone rs i name value r W St Hh M RF valid.
  destruct (evaluation_verdict _ _ _ _ _ _ _ _ _ _ _ (steady_evaluation _ _ _ _ _ _ _ W Hh St M) RF) as (V & Hn & _ & _).
  split; [split|split].
  - intros S. destruct (success_valid _ _ _ _ _ _ _ _ _ V S) as (sig & k & _ & _ & H). exists sig, k. exact H.
  - intros (sig & k & H). apply (valid_success _ _ _ _ _ _ _ _ _ Hh Hn V sig k H).
  - intros S. exact (success_valid _ _ _ _ _ _ _ _ _ V S).
  - intros sig k H. apply (valid_success _ _ _ _ _ _ _ _ _ Hh Hn V sig k H).
Qed.

Theorem success_rfc : forall w headers config chunks zone rs i name value r, world_ok w -> steady (w_resolver w) zone ->
  header_fields headers -> verify_message E w headers config chunks = Val (Some rs) -> result_for config headers rs i name value r ->
  let valid := valid_dkim E rfc_body zone config (w_clock w i) headers (concat chunks) name value in
  (forall sig, vr_signature r = Some sig -> regular_body (c_body (s_canonicalization sig)) (concat chunks)) ->
  (vr_status r = Success <-> exists sig k, valid sig k)
  /\ (vr_status r = Success -> exists sig k, vr_signature r = Some sig /\ vr_key_record r = Some k /\ valid sig k).
Proof.
  intros w headers config chunks zone rs i name value r W St Hh M RF valid Reg.
  destruct (success_exact _ _ _ _ _ _ _ _ _ _ W St Hh M RF) as (X1 & X2 & _).
  assert (vr_status r = Success -> exists sig k, vr_signature r = Some sig /\ vr_key_record r = Some k /\ valid sig k) as Y.
  { intros S. destruct (X2 S) as (sig & k & H1 & H2 & H3). exists sig, k. split; [exact H1|]. split; [exact H2|].
    eapply valid_ext; [|exact H3]. apply rfc_regular. apply Reg. exact H1. }
  split; [split|exact Y].
  - intros S. destruct (Y S) as (sig & k & _ & _ & H). eauto.
  - intros (sig & k & H). apply X1. exists sig, k. eapply valid_ext; [|exact H]. symmetry. apply rfc_regular. apply Reg.
    destruct (evaluation_verdict _ _ _ _ _ _ _ _ _ _ _ (steady_evaluation _ _ _ _ _ _ _ W Hh St M) RF) as (V & _).
    destruct H as (s & tags & _ & _ & _ & _ & H1 & H2 & H3 & H4 & _). eapply verdict_signature; [exact V|]. apply read_iff. eauto.
Qed.

(** ** Signatures by other programs *)

Lemma signed_valid : forall canonical key vkey headers extra body name s sig zone config now txt k,
  signed_by E canonical key headers body name s sig -> header_fields (extra ++ headers) ->
  not_oversigned (s_signed_headers sig) headers extra ->
  signature_good E (extra ++ headers) config now sig ->
  (cf_forbid_unsigned_content config = true -> body_hashed E canonical sig body []) ->
  published E zone sig txt -> key_for E sig config txt k vkey -> keys_match E key vkey ->
  valid_dkim E canonical zone config now (extra ++ headers) body name (as_bytes s) sig k.
Proof.
  intros canonical key vkey headers extra body name s sig zone config now txt k (tags & data & rest & H1 & H2 & H3 & H4 & H5 & H6) Hh NO G Cov Pu K KM.
  assert (exists rest', body_hashed E canonical sig body rest' /\ (cf_forbid_unsigned_content config = true -> rest' = [])) as (rest' & B1 & B2).
  { destruct (cf_forbid_unsigned_content config); [exists []; auto|exists rest; split; [exact H6|discriminate]]. }
  exists s, tags, txt, vkey, data, rest'. repeat (split; [assumption || reflexivity|]).
  split; [|split; [apply KM; exact H5|auto]].
  destruct H4 as (v & s' & G1 & G2 & ->). exists v, s'. split; [exact G1|]. split; [exact G2|]. rewrite hash_input_above by assumption. reflexivity.
Qed.

Theorem signed_by_any : forall w config headers above below body chunks name s sig zone rs r key vkey txt k,
  signed_by E canonical_body key headers body name s sig ->
  let extra := above ++ (name, as_bytes s) :: below in
  world_ok w -> steady (w_resolver w) zone -> header_fields (extra ++ headers) ->
  not_oversigned (s_signed_headers sig) headers extra -> concat chunks = body ->
  signature_good E (extra ++ headers) config (w_clock w (length above)) sig ->
  (cf_forbid_unsigned_content config = true -> body_hashed E canonical_body sig body []) ->
  published E zone sig txt -> key_for E sig config txt k vkey -> keys_match E key vkey ->
  verify_message E w (extra ++ headers) config chunks = Val (Some rs) ->
  result_for config (extra ++ headers) rs (length above) name (as_bytes s) r ->
  vr_status r = Success /\ vr_signature r = Some sig.
Proof.
  intros w config headers above below body chunks name s sig zone rs r key vkey txt k Sg extra W St Hh NO Eb G Cov Pu K KM M RF.
  destruct (success_exact _ _ _ _ _ _ _ _ _ _ W St Hh M RF) as (X1 & _ & X3). rewrite Eb in X1, X3.
  pose proof (signed_valid _ _ _ _ _ _ _ _ _ _ _ _ _ _ Sg Hh NO G Cov Pu K KM) as H.
  split; [apply X1; exists sig, k; exact H|eapply X3; exact H].
Qed.

Theorem signed_by_rfc : forall w config headers above below body chunks name s sig zone rs r key vkey txt k,
  signed_by E rfc_body key headers body name s sig ->
  regular_body (c_body (s_canonicalization sig)) body ->
  let extra := above ++ (name, as_bytes s) :: below in
  world_ok w -> steady (w_resolver w) zone -> header_fields (extra ++ headers) ->
  not_oversigned (s_signed_headers sig) headers extra -> concat chunks = body ->
  signature_good E (extra ++ headers) config (w_clock w (length above)) sig ->
  (cf_forbid_unsigned_content config = true -> body_hashed E rfc_body sig body []) ->
  published E zone sig txt -> key_for E sig config txt k vkey -> keys_match E key vkey ->
  verify_message E w (extra ++ headers) config chunks = Val (Some rs) ->
  result_for config (extra ++ headers) rs (length above) name (as_bytes s) r ->
  vr_status r = Success /\ vr_signature r = Some sig.
Proof.
  intros w config headers above below body chunks name s sig zone rs r key vkey txt k Sg Reg extra W St Hh NO Eb G Cov Pu K KM M RF.
  pose proof (eq_sym (rfc_regular _ _ Reg)) as Q.
  eapply (signed_by_any w config headers above below body chunks name s sig zone rs r key vkey txt k); try eassumption.
  - destruct Sg as (tags & data & rest & H1 & H2 & H3 & H4 & H5 & H6). exists tags, data, rest. repeat (split; [assumption|]).
    eapply body_hashed_ext; eassumption.
  - intros F. eapply body_hashed_ext; [exact Q|auto].
Qed.

End WithEnv.
