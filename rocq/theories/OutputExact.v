(** Proofs: when exactly the signer's output is read back as the signature reported. *)

From Coq Require Import String List Permutation.
From Verif Require Import Base Utf8 Canon BodyHash Header Domain Signature Crypto TagList Format Sign
  SpecText SpecCanon SpecHash SpecHeader SpecTag SpecDomain SpecSig SpecFormat SpecSign SpecOutput
  Lib Utf8Proofs Base64Proofs HeaderProofs DomainProofs QPProofs QPDecode TagListProofs HeaderCanonProofs
  SigProofs FormatProofs SignProofs OutputProofs OutputParse.
Import ListNotations.
Open Scope N_scope.

(** ** Names of copied fields *)

Definition blank_b (c : char) : bool := (c =? 32) || (c =? 9) || (c =? 13) || (c =? 10).
Definition ink (s : str) : nat := length (filter (fun c => negb (blank_b c)) s).

Lemma ink_app : forall a b, ink (a ++ b) = (ink a + ink b)%nat.
Proof. intros. unfold ink. rewrite filter_app, app_length. reflexivity. Qed.

Lemma ink_length : forall a, (ink a <= length a)%nat.
Proof. intros. unfold ink. induction a as [|c a IH]; cbn [filter length]; [lia|]. destruct (negb _); cbn [length]; lia. Qed.

Lemma ink_ofws : forall f, ofws f -> ink f = O.
Proof.
  intros f H. assert (forall c, In c f -> blank_b c = true) as B.
  { intros c Hc. apply ofws_chars in Hc; [|exact H]. unfold blank_b. lia. }
  clear H. unfold ink. induction f as [|c f IH]; [reflexivity|]. cbn [filter]. rewrite (B c (or_introl eq_refl)). cbn [negb].
  apply IH. intros; apply B; right; assumption.
Qed.

Lemma ink_cons : forall c a, blank_b c = false -> ink (c :: a) = S (ink a).
Proof. intros c a H. unfold ink. cbn [filter]. rewrite H. reflexivity. Qed.

Lemma peel : forall (k : char) f s a y, ~ In k f -> f ++ s = a ++ k :: y -> exists a2, a = f ++ a2 /\ s = a2 ++ k :: y.
Proof.
  intros k f s a y K H. apply app_eq_app in H as (l & [[H1 H2]|[H1 H2]]).
  - destruct l as [|c l].
    + exists []. rewrite app_nil_r in *. cbn [app] in *. split; congruence.
    + cbn [app] in H2. injection H2 as -> ->. exfalso. apply K. rewrite H1. apply in_app_iff. right. left. reflexivity.
  - exists l. auto.
Qed.

Lemma ofws_not : forall f k, ofws f -> k <> 32 -> k <> 9 -> k <> 13 -> k <> 10 -> ~ In k f.
Proof. intros f k H A B C D X. apply ofws_chars in X; [|exact H]. lia. Qed.

Lemma hex_not : forall c v, hexdigit c v -> c <> 58 /\ c <> 61 /\ blank_b c = false.
Proof. intros c v H. unfold blank_b. destruct H; lia. Qed.

Lemma items_split : forall s bs, qp_items s bs -> forall a y, s = a ++ 58 :: y -> ~ In 58 a -> Forall (fun c => c < 128) a ->
  exists D R, bs = D ++ 58 :: R /\ (length D <= ink a)%nat /\ (In 61 a -> (length D < ink a)%nat).
Proof.
  intros s bs H. induction H as [|c f s bs Hc Hf H IH|f1 c1 v1 f2 c2 v2 f3 s bs F1 H1 F2 H2 F3 H IH]; intros a y E K A.
  - destruct a; discriminate E.
  - destruct a as [|c' a]; cbn [app] in E; injection E as -> E.
    + exists [], bs. split; [reflexivity|]. cbn. split; [lia|tauto].
    + apply peel in E as (a2 & -> & ->); [|apply ofws_not; auto; discriminate].
      destruct (IH a2 y eq_refl) as (D & R & -> & L1 & L2).
      { intros X. apply K. right. apply in_app_iff. auto. }
      { inv A. apply Forall_app in H3. tauto. }
      assert (c' < 128) as Lc by (inv A; assumption).
      exists (utf8_char c' ++ D), R. rewrite <- app_assoc. split; [reflexivity|].
      assert (length (utf8_char c') = 1%nat) as U. { unfold utf8_char. replace (c' <? 128) with true by lia. reflexivity. }
      rewrite ink_cons, ink_app, (ink_ofws f Hf), app_length, U by (unfold dkim_safe in Hc; unfold blank_b; lia).
      split; [lia|]. intros [X|X]; [subst c'; unfold dkim_safe in Hc; lia|]. apply in_app_iff in X as [X|X].
      * exfalso. revert X. apply ofws_not; auto; discriminate.
      * specialize (L2 X). lia.
  - destruct a as [|c' a]; cbn [app] in E; [discriminate E|]. injection E as <- E.
    destruct (hex_not _ _ H1) as (A1 & A2 & A3). destruct (hex_not _ _ H2) as (B1 & B2 & B3).
    apply peel in E as (a2 & -> & E); [|apply ofws_not; auto; discriminate].
    destruct a2 as [|c' a2]; cbn [app] in E; injection E as Ec E; [congruence|]; subst c'.
    apply peel in E as (a3 & -> & E); [|apply ofws_not; auto; discriminate].
    destruct a3 as [|c' a3]; cbn [app] in E; injection E as Ec E; [congruence|]; subst c'.
    apply peel in E as (a4 & -> & ->); [|apply ofws_not; auto; discriminate].
    destruct (IH a4 y eq_refl) as (D & R & -> & L1 & _).
    { intros X. apply K. right. apply in_app_iff. right. right. apply in_app_iff. right. right. apply in_app_iff. auto. }
    { rewrite Forall_forall in A |- *. intros c Hc. apply A. right. apply in_app_iff. right. right. apply in_app_iff. right. right. apply in_app_iff. auto. }
    exists (v1 * 16 + v2 :: D), R. split; [reflexivity|].
    rewrite ink_cons, ink_app, ink_cons, ink_app, ink_cons, ink_app by (assumption || reflexivity).
    cbn [length]. lia.
Qed.

Lemma colon_after : forall (n v D R : list N), ~ In 58 n -> n ++ 58 :: v = D ++ 58 :: R -> (length n <= length D)%nat.
Proof.
  intros n v D R K H. apply app_eq_app in H as (l & [[H1 H2]|[H1 H2]]).
  - destruct l as [|c l]; [rewrite app_nil_r in H1; subst; lia|]. cbn [app] in H2. injection H2 as <- H2. subst n. exfalso. apply K.
    apply in_app_iff. right. left. reflexivity.
  - subst D. rewrite app_length. lia.
Qed.

Lemma piece_name : forall f n x v, ofws f -> field_name n -> qp_text (f ++ n ++ [58] ++ x) (n ++ [58] ++ v) -> ~ In 61 n.
Proof.
  intros f n x v Hf N (g & s & Hg & E & Q) X. destruct (field_name_ascii n N) as (_ & Nc & _).
  assert (~ In 58 n) as K. { apply field_name_ascii in N. tauto. }
  assert (Forall (fun c => c < 128) n) as A.
  { destruct N as [_ N]. eapply Forall_impl; [|exact N]. unfold ftext. intros; lia. }
  change (n ++ [58] ++ x) with (n ++ 58 :: x) in E. rewrite app_assoc in E. symmetry in E.
  apply peel in E as (a & E & Es); [|apply ofws_not; auto; discriminate].
  assert (Forall (fun c => c < 128) (f ++ n)) as A'.
  { apply Forall_app. split; [|exact A]. apply Forall_forall. intros c Hc. apply ofws_chars in Hc; [|exact Hf]. lia. }
  assert (~ In 58 (f ++ n)) as K'. { rewrite in_app_iff. intros [Y|Y]; [|tauto]. revert Y. apply ofws_not; auto; discriminate. }
  assert (In 61 (f ++ n)) as X'. { apply in_app_iff. auto. }
  assert (ink (f ++ n) <= length n)%nat as L. { rewrite ink_app, (ink_ofws f Hf). apply ink_length. }
  rewrite E in A', K', X', L. rewrite ink_app in L. apply Forall_app in A' as [_ A']. rewrite in_app_iff in K', X'.
  destruct X' as [X'|X']; [revert X'; apply ofws_not; auto; discriminate|].
  destruct (items_split _ _ Q a x Es) as (D & R & B & _ & L2); [tauto|exact A'|]. specialize (L2 X').
  apply colon_after in B; [|exact K]. lia.
Qed.

Notation bars := (count_occ N.eq_dec).

Lemma bar_count : forall ps, ps <> [] -> Forall (fun p => ~ In 124 p) ps -> S (bars (bar_joined ps) 124) = length ps.
Proof.
  induction ps as [|p ps IH]; intros NE H; [congruence|]. inv H. destruct ps as [|p2 ps].
  - cbn [bar_joined length]. f_equal. apply count_occ_not_In. assumption.
  - change (bar_joined (p :: p2 :: ps)) with (p ++ 124 :: bar_joined (p2 :: ps)). rewrite count_occ_app.
    rewrite (proj1 (count_occ_not_In N.eq_dec p 124) H2). rewrite count_occ_cons_eq by reflexivity.
    cbn [Nat.add]. rewrite IH by (assumption || discriminate). reflexivity.
Qed.

Lemma no_bars : forall f, ofws f -> bars f 124 = O.
Proof. intros f H. apply count_occ_not_In. apply ofws_not; auto; discriminate. Qed.

Lemma value_bars : forall asc v q t, Forall is_byte v -> qp_encoding (Some 124) asc v q -> spaced q t -> ~ In 124 t.
Proof.
  intros asc v q t Hv Q Ht X. destruct (spaced_in _ _ _ Ht X) as [Y|Y]; [|lia].
  destruct (encoding_chars _ _ _ _ Hv Q _ Y) as [Z|(_ & _ & Z & _)]; [unfold hex_or_eq in Z; lia|congruence].
Qed.

Lemma copied_count : forall asc fs t, copied_text asc fs t -> Forall (fun f => Forall is_byte (snd f)) fs ->
  bars t 124 = (length fs + bars (concat (map fst fs)) 124%N)%nat.
Proof.
  intros asc fs t H. induction H as [|n v q fs f1 f2 t t' F1 F2 Q T H IH]; intros B; [reflexivity|]. inv B. cbn [snd] in *.
  rewrite !count_occ_app. cbn [map fst concat length]. rewrite count_occ_app. rewrite (no_bars f1 F1), (no_bars f2 F2).
  rewrite (proj1 (count_occ_not_In N.eq_dec t 124)) by (eapply value_bars; eassumption).
  replace (bars [124] 124) with 1%nat by reflexivity. replace (bars [58] 124) with 0%nat by reflexivity.
  rewrite IH by assumption. lia.
Qed.

Lemma first_bar : forall (a x b y : str), ~ In 124 a -> ~ In 124 b -> a ++ 124 :: x = b ++ 124 :: y -> a = b /\ x = y.
Proof.
  intros a x b y A B H. pose proof H as H0. apply peel in H as (a2 & -> & H); [|exact A].
  destruct a2 as [|c a2]; [rewrite app_nil_r; cbn [app] in H; injection H as ->; auto|].
  cbn [app] in H. injection H as <- H. exfalso. apply B. apply in_app_iff. right. left. reflexivity.
Qed.

Lemma copied_names : forall asc fs t', copied_text asc fs t' -> forall n v q f t pieces,
  Forall (fun f => Forall is_byte (snd f)) ((n, v) :: fs) ->
  Forall (fun f => ~ In 124 (fst f)) ((n, v) :: fs) ->
  qp_encoding (Some 124) asc v q -> ofws f -> spaced q t -> Forall (fun p => ~ In 124 p) pieces ->
  f ++ n ++ [58] ++ t ++ t' = bar_joined pieces ->
  Forall2 (fun p '(n, v) => field_name n /\ qp_text p (n ++ [58] ++ v)) pieces ((n, v) :: fs) ->
  Forall (fun f => ~ In 61 (fst f)) ((n, v) :: fs).
Proof.
  intros asc fs t' H. induction H as [|n1 v1 q1 fs f1 f2 t1 t1' F1 F2 Q1 T1 _ IH]; intros n v q f t pieces B N Q F T NP E P.
  - inversion P as [|p a ps b P0 P3]; subst. cbn beta iota in P0. destruct P0 as [P1 P2]. inv P3. cbn [bar_joined] in E. subst p.
    constructor; [|constructor]. cbn [fst]. eapply piece_name; eassumption.
  - inversion P as [|p a ps b P0 P3]; subst. cbn beta iota in P0. destruct P0 as [P1 P2]. destruct ps as [|p2 ps]; [inv P3|].
    change (bar_joined (p :: p2 :: ps)) with (p ++ 124 :: bar_joined (p2 :: ps)) in E.
    inversion NP as [|? ? NP1 NP2]; subst. inversion B as [|? ? B1 B2]; subst. inversion N as [|? ? N1 N2]; subst. cbn [fst snd] in *.
    assert ((f ++ n ++ [58] ++ t ++ f1) ++ 124 :: (f2 ++ n1 ++ [58] ++ t1 ++ t1') = p ++ 124 :: bar_joined (p2 :: ps)) as E'.
    { rewrite <- E. rewrite <- !app_assoc. reflexivity. }
    apply first_bar in E' as [E1 E2]; [|rewrite !in_app_iff|exact NP1].
    + constructor.
      * cbn [fst]. subst p. eapply piece_name; [exact F|exact P1|exact P2].
      * exact (IH n1 v1 q1 f2 t1 (p2 :: ps) B2 N2 Q1 F2 T1 NP2 E2 P3).
    + intros [X|[X|[X|[X|X]]]].
      * revert X. apply ofws_not; auto; discriminate.
      * tauto.
      * destruct X as [X|[]]. discriminate X.
      * revert X. eapply value_bars; eassumption.
      * revert X. apply ofws_not; auto; discriminate.
Qed.

Lemma copied_exact : forall asc fs t' n v q t, copied_text asc fs t' ->
  Forall (fun f => Forall is_byte (snd f)) ((n, v) :: fs) ->
  qp_encoding (Some 124) asc v q -> spaced q t -> copied_headers_text (n ++ [58] ++ t ++ t') ((n, v) :: fs) ->
  Forall (fun f => ~ In 61 (fst f) /\ ~ In 124 (fst f)) ((n, v) :: fs).
Proof.
  intros asc fs t' n v q t C B Q T (ps & NE & NP & E & P).
  assert (Forall (fun f => ~ In 124 (fst f)) ((n, v) :: fs)) as N.
  { pose proof (bar_count ps NE NP) as L. rewrite <- E in L. rewrite !count_occ_app in L.
    inversion B as [|? ? B1 B2]; subst. cbn [snd] in B1.
    rewrite (copied_count _ _ _ C B2), (proj1 (count_occ_not_In N.eq_dec t 124)) in L by (eapply value_bars; eassumption).
    replace (bars [58] 124) with 0%nat in L by reflexivity.
    assert (length ps = S (length fs)) as L2. { change (S (length fs)) with (length ((n, v) :: fs)). clear - P. induction P; cbn [length]; congruence. }
    assert (bars n 124 = O /\ bars (concat (map fst fs)) 124 = O) as [Z1 Z2] by lia.
    apply count_occ_not_In in Z1, Z2. constructor; [exact Z1|]. apply Forall_forall. intros g Hg X. apply Z2.
    apply in_concat. exists (fst g). split; [|exact X]. apply in_map. exact Hg. }
  pose proof (copied_names asc fs t' C n v q [] t ps B N Q (or_introl eq_refl) T NP E P) as N'.
  rewrite Forall_forall in *. intros g Hg. auto.
Qed.

(** ** Outputs *)

Lemma identity_reads : forall E u i d l asc i', idna_ok (env_idna E) -> sound_usig E u -> u_identity u = Some i ->
  written_form (env_idna E) asc (id_domain i) d -> Forall is_scalar (id_domain i) ->
  qp_encoding None asc (as_bytes (unwrap_or (id_local_part i) [])) l ->
  identity_tag_text (env_idna E) (l ++ [64] ++ d) i' ->
  forall p, id_local_part i = Some p -> p = [] \/ local_part p.
Proof.
  intros E u i d l asc i' IO S Hi W Sc Q (s & Ss & Qs & N1 & N2 & N3) p Hp.
  destruct (su_identity _ _ S i Hi) as (D & Ls & _).
  destruct (written_domain _ _ _ _ _ IO D W) as (D' & _ & Sc'). specialize (Sc' Sc).
  pose proof (written_chars _ _ _ _ _ IO D W) as Dc. rewrite Hp in Q. cbn [unwrap_or] in Q.
  assert (Forall is_scalar p) as Lsc by (apply Ls; exact Hp).
  assert (qp_text (l ++ [64] ++ d) (as_bytes (p ++ [64] ++ d))) as T.
  { exists [], (l ++ [64] ++ d). split; [left; reflexivity|]. split; [reflexivity|].
    rewrite as_bytes_app. apply qp_items_app.
    + eapply encoding_text; [|exact Q]. apply as_bytes_bytes. exact Lsc.
    + apply qp_items_safe. constructor; [unfold dkim_safe; lia|]. eapply Forall_impl; [|exact Dc].
      unfold dchar, letter_digit, dkim_safe. clear. intros; lia. }
  apply qp_decode_iff in T, Qs. rewrite T in Qs. injection Qs as Qs. apply as_bytes_inj in Qs; [|apply Forall_app; split; [exact Lsc|]; constructor; [unfold is_scalar; lia|exact Sc']|exact Ss].
  assert (~ In 64 d) as Nd.
  { intros X. rewrite Forall_forall in Dc. specialize (Dc _ X). unfold dchar, letter_digit in Dc. lia. }
  assert (forall a b x y : str, ~ In 64 b -> ~ In 64 y -> a ++ [64] ++ b = x ++ [64] ++ y -> a = x) as Last.
  { intros a b x y Hb Hy X. apply app_eq_app in X as (k & [[X1 X2]|[X1 X2]]).
    - destruct k as [|c k]; [rewrite app_nil_r in X1; exact X1|]. cbn [app] in X2. injection X2 as <- X2. exfalso. apply Hy. rewrite X2. apply in_app_iff. right. left. reflexivity.
    - destruct k as [|c k]; [rewrite app_nil_r in X1; symmetry; exact X1|]. cbn [app] in X2. injection X2 as <- X2. exfalso. apply Hb. rewrite X2. apply in_app_iff. right. left. reflexivity. }
  destruct (id_local_part i') as [p'|].
  - destruct N3 as [N3 N4]. right. rewrite N3 in Qs. apply Last in Qs; auto. subst p'. exact N4.
  - left. rewrite N3 in Qs. change ([64] ++ id_domain i') with ([] ++ [64] ++ id_domain i') in Qs. apply Last in Qs; auto.
Qed.

(** what follows from an output having been read at all *)
Lemma exact_back : forall E now r headers body o u pre post sig n b64 sig', idna_ok (env_idna E) ->
  output_of E now r headers body o u pre post sig n b64 ->
  (forall i, r_identity E r = Some i -> Forall is_scalar (id_domain i)) ->
  (forall t, time_of E r now = Some t -> t < 2^64) -> now < 2^64 ->
  sig_from_str (env_pre E) (env_idna E) (so_header_value o) = Val (Ok sig') ->
  (forall i l, r_identity E r = Some i -> id_local_part i = Some l -> l = [] \/ local_part l)
  /\ (forall v, In (lit "q", v) (r_ext_tags E r) -> exists ms, query_methods_text v ms /\ exists m, In m ms /\ named m "dns/txt")
  /\ (forall t, time_of E r now = Some t -> r_valid_duration E r <> None -> t < 2^64 - 1)
  /\ (forall i l, s_identity sig' = Some i -> id_local_part i = Some l -> local_part l)
  /\ ~ In (lit "q") (map fst (s_ext_tags sig'))
  /\ (s_copied_headers sig' = s_copied_headers (so_signature o) -> copied_names_safe (so_signature o)).
Proof.
  intros E now r headers body o u pre post sig n b64 sig' IO H HS HT Hnow P.
  destruct (output_tags _ _ _ _ _ _ _ _ _ _ _ _ IO H) as (tags & Tm & ND & HP & Tn & TL).
  pose proof (oo_sound _ _ _ _ _ _ _ _ _ _ _ _ H) as S.
  destruct (oo_u _ _ _ _ _ _ _ _ _ _ _ _ H) as (hashed & len & names & copied & U1 & U2 & U3 & Eu).
  assert (u_ext_tags u = r_ext_tags E r) as Ex by (rewrite Eu; reflexivity).
  assert (u_identity u = r_identity E r) as Ei by (rewrite Eu; reflexivity).
  assert (u_timestamp u = time_of E r now) as Et by (rewrite Eu; reflexivity).
  assert (u_expiration u = match r_valid_duration E r with
            | Some k => Some (N.min (match time_of E r now with Some t => t | None => now end + k) (2^64 - 1)) | None => None end) as Ee.
  { rewrite Eu. cbn [u_expiration]. reflexivity. }
  clear U1 U2 U3 Eu.
  apply sig_ok_iff in P as (specs & TL' & Sg). rewrite TL in TL'. injection TL' as <-.
  destruct Sg as (_ & _ & _ & _ & _ & _ & _ & Gi & _ & Gq & _ & Gt & Gx & Gz & Ge & _ & Gtx).
  split; [|split; [|split; [|split; [|split]]]].
  - intros i l Hi Hl. rewrite <- Ei in Hi.
    destruct (present E u (of_ascii_only (r_format E r)) b64 tags Tm ND HP "i") as (v & G & M); [cbn; rewrite Hi; tauto|].
    rewrite G in Gi. cbn [optional] in Gi. apply (means_i E u S) in M as (j & dj & l' & Ej & W & Q & ->); [|reflexivity].
    assert (j = i) as -> by congruence. destruct (s_identity sig') as [i'|]; [|destruct Gi].
    eapply identity_reads; try eassumption. apply HS. congruence.
  - intros v Hv. rewrite <- Ex in Hv. apply (q_ext E u (of_ascii_only (r_format E r)) b64 tags S Tm ND HP) in Hv.
    rewrite Hv in Gq. exact Gq.
  - intros t Ht Hd. destruct (r_valid_duration E r) as [k|]; [|congruence].
    destruct (present E u (of_ascii_only (r_format E r)) b64 tags Tm ND HP "t") as (v & G & M); [cbn; rewrite Et, Ht; tauto|].
    destruct (present E u (of_ascii_only (r_format E r)) b64 tags Tm ND HP "x") as (w & G' & M'); [cbn; rewrite Ee; tauto|].
    rewrite G in Gt. rewrite G' in Gx. cbn [optional] in Gt, Gx.
    apply (means_t E u S) in M as (t0 & T1 & T2); [|reflexivity]. apply (means_x E u S) in M' as (x0 & X1 & X2); [|reflexivity].
    assert (t0 = t) as -> by congruence. rewrite Ee in X1. injection X1 as X1.
    destruct (s_timestamp sig') as [t'|]; [|destruct Gt]. destruct (s_expiration sig') as [x'|]; [|destruct Gx].
    rewrite (number_text_det _ _ _ Gt (number_ok _ _ T2 (HT t Ht))) in Gtx.
    rewrite (number_text_det _ _ _ Gx (number_ok _ _ X2 ltac:(lia))) in Gtx. lia.
  - intros i l Hi Hl. rewrite Hi in Gi. destruct (get "i" _); [|destruct Gi]. destruct Gi as (s & _ & _ & _ & _ & X). rewrite Hl in X. tauto.
  - rewrite Ge. intros X. assert (forall ts m, In m (map fst (ext_tags known_sig_tags ts)) -> ~ In m known_sig_tags) as Y.
    { clear. induction ts as [|t ts IH]; intros m; cbn [ext_tags map In]; [tauto|]. destruct (mem_str (tag_name t) known_sig_tags) eqn:M; [apply IH|].
      cbn [map In fst]. intros [<-|Z]; [|apply IH; exact Z]. intros Z. apply mem_str_In in Z. congruence. }
    apply (Y _ _ X). cbn. tauto.
  - intros Hc. unfold copied_names_safe. rewrite (oo_o _ _ _ _ _ _ _ _ _ _ _ _ H) in Hc |- *. cbn [so_signature s_copied_headers] in Hc |- *.
    destruct (u_copied_headers u) as [|(m & v) fs] eqn:Ez; [constructor|].
    destruct (present E u (of_ascii_only (r_format E r)) b64 tags Tm ND HP "z") as (val & G & M); [cbn; rewrite Ez; cbn; tauto|].
    apply (means_z E u S) in M as (m' & w & q & t & gs & t' & Z1 & Z2 & Z3 & Z4 & ->); [|reflexivity].
    rewrite Ez in Z1. injection Z1 as <- <- <-. rewrite G, Hc in Gz.
    eapply copied_exact; try eassumption.
    rewrite <- Ez. eapply Forall_impl; [|apply (su_copied _ _ S)]. cbn. tauto.
Qed.

(** An output is read back as the signature reported exactly if … *)
Theorem output_exact : forall E now r headers body o u pre post sig n b64, idna_ok (env_idna E) -> crypto_nonempty (env_crypto E) ->
  output_of E now r headers body o u pre post sig n b64 ->
  (Forall is_scalar (r_domain E r) /\ Forall is_scalar (r_selector E r)
    /\ forall i, r_identity E r = Some i -> Forall is_scalar (id_domain i)) ->
  (r_algorithm E r = RsaSha1 -> env_pre E = true) ->
  (forall t, time_of E r now = Some t -> t < 2^64) -> now < 2^64 ->
  (exists sig', sig_from_str (env_pre E) (env_idna E) (so_header_value o) = Val (Ok sig')
    /\ written_signature (env_idna E) (r_format E r) (so_signature o) sig')
  <-> (forall i l, r_identity E r = Some i -> id_local_part i = Some l -> local_part l)
      /\ ~ In (lit "q") (map fst (r_ext_tags E r))
      /\ (forall t, time_of E r now = Some t -> r_valid_duration E r <> None -> t < 2^64 - 1)
      /\ copied_names_safe (so_signature o).
Proof.
  intros E now r headers body o u pre post sig n b64 IO NE H Sc Al Ht Hn. split.
  - intros (sig' & P & W). destruct (exact_back _ _ _ _ _ _ _ _ _ _ _ _ _ IO H (proj2 (proj2 Sc)) Ht Hn P) as (_ & _ & B3 & B4 & B5 & B6).
    destruct W as (_ & _ & _ & _ & _ & _ & Wi & _ & _ & _ & _ & Wc & We & _).
    assert (s_identity (so_signature o) = r_identity E r /\ s_ext_tags (so_signature o) = r_ext_tags E r) as [Ei Ex].
    { destruct (oo_u _ _ _ _ _ _ _ _ _ _ _ _ H) as (hashed & len & names & copied & _ & _ & _ & Eu).
      rewrite (oo_o _ _ _ _ _ _ _ _ _ _ _ _ H). cbn [so_signature s_identity s_ext_tags]. rewrite Eu. split; reflexivity. }
    rewrite Ei in Wi. rewrite Ex in We. split; [|split; [|split; [exact B3|exact (B6 Wc)]]].
    + intros i l Hi Hl. rewrite Hi in Wi. destruct (s_identity sig') as [i'|] eqn:Ei'; [|destruct Wi].
      apply (B4 i' l eq_refl). destruct Wi as [Wi _]. congruence.
    + intros X. apply B5. eapply Permutation_in; [|exact X]. apply Permutation_map. symmetry. exact We.
  - intros (L & Q & T & C). eapply output_parses; try eassumption. constructor; auto.
Qed.

(** An output whose copied field names can be read is accepted exactly if … *)
Theorem output_accepted : forall E now r headers body o u pre post sig n b64, idna_ok (env_idna E) -> crypto_nonempty (env_crypto E) ->
  output_of E now r headers body o u pre post sig n b64 ->
  (forall i, r_identity E r = Some i -> Forall is_scalar (id_domain i)) ->
  (r_algorithm E r = RsaSha1 -> env_pre E = true) ->
  (forall t, time_of E r now = Some t -> t < 2^64) -> now < 2^64 ->
  copied_names_safe (so_signature o) ->
  (exists sig', sig_from_str (env_pre E) (env_idna E) (so_header_value o) = Val (Ok sig'))
  <-> (forall i l, r_identity E r = Some i -> id_local_part i = Some l -> l = [] \/ local_part l)
      /\ (forall v, In (lit "q", v) (r_ext_tags E r) -> exists ms, query_methods_text v ms /\ exists m, In m ms /\ named m "dns/txt")
      /\ (forall t, time_of E r now = Some t -> r_valid_duration E r <> None -> t < 2^64 - 1).
Proof.
  intros E now r headers body o u pre post sig n b64 IO NE H Sc Al Ht Hn C. split.
  - intros (sig' & P). destruct (exact_back _ _ _ _ _ _ _ _ _ _ _ _ _ IO H Sc Ht Hn P) as (B1 & B2 & B3 & _). auto.
  - intros (L & Q & T).
    destruct (output_tags _ _ _ _ _ _ _ _ _ _ _ _ IO H) as (tags & Tm & ND & HP & Tn & TL).
    assert (readable_parts E r now) as R by (constructor; auto).
    destruct (output_reads _ _ _ _ _ _ _ _ _ _ _ _ tags IO NE H R Hn C Tm ND HP TL) as (d & s & i & P & _).
    eexists. exact P.
Qed.
