(** Proofs about the signer's output. *)

From Coq Require Import String List.
From Verif Require Import Base Utf8 Canon BodyHash Header Domain Signature Crypto TagList Format Sign
  SpecText SpecCanon SpecHash SpecHeader SpecTag SpecDomain SpecSig SpecFormat SpecSign SpecOutput
  Lib Utf8Proofs Base64Proofs HeaderProofs DomainProofs QPProofs QPDecode TagListProofs HeaderCanonProofs
  SigProofs FormatProofs SignProofs.
Import ListNotations.
Open Scope N_scope.

(** ** Laid out text, whatever the width *)

Definition sep_ok (ind : str) (j : Joint) (sep : str) : Prop :=
  match j with
  | Start => sep = [32] \/ sep = [13; 10] ++ ind
  | Inner => sep = [] \/ sep = [13; 10] ++ ind
  | Glued => sep = []
  end.

Inductive laid (ind : str) : list Piece -> str -> Prop :=
| laid_nil : laid ind [] []
| laid_cons : forall p ps sep t, sep_ok ind (p_joint p) sep -> laid ind ps t ->
    laid ind (p :: ps) (sep ++ p_text p ++ t).

Lemma layout_laid : forall w ind ps i, laid ind ps (fst (layout w ind i ps)).
Proof.
  intros w ind. induction ps as [|p ps IH]; intros i; cbn [layout]; [constructor|].
  destruct (attach w ind i p) as [t i1] eqn:A. specialize (IH i1).
  destruct (layout w ind i1 ps) as [t' i2]. cbn [fst] in *.
  assert (exists sep, sep_ok ind (p_joint p) sep /\ t = sep ++ p_text p) as (sep & S & ->).
  { unfold attach in A. cbv zeta in A. destruct (p_joint p); [destruct (Nat.leb _ _)|destruct (Nat.leb _ _)|]; injection A as <- _;
      [exists [32]|exists ([13; 10] ++ ind)|exists []|exists ([13; 10] ++ ind)|exists []];
      (split; [cbn; auto|rewrite <- ?app_assoc; reflexivity]). }
  rewrite <- app_assoc. constructor; auto.
Qed.

Lemma laid_app : forall ind ps qs s t, laid ind ps s -> laid ind qs t -> laid ind (ps ++ qs) (s ++ t).
Proof.
  intros ind ps qs s t H K. induction H; [exact K|]. cbn [app]. rewrite <- !app_assoc. constructor; auto.
Qed.

Lemma laid_split : forall ind ps qs s, laid ind (ps ++ qs) s -> exists a b, s = a ++ b /\ laid ind ps a /\ laid ind qs b.
Proof.
  intros ind. induction ps as [|p ps IH]; intros qs s H.
  - exists [], s. repeat split; [constructor|exact H].
  - cbn [app] in H. inv H. apply IH in H4 as (a & b & -> & A & B).
    exists (sep ++ p_text p ++ a), b. rewrite <- !app_assoc. repeat split; [|exact B]. constructor; auto.
Qed.

Section Whole.
Variable idna : Idna.

Lemma tag_pieces_b : forall u asc b b' stop n ps, n <> lit "b" ->
  tag_pieces idna u asc b stop n ps -> tag_pieces idna u asc b' stop n ps.
Proof. intros u asc b b' stop n ps Hn H. inversion H; subst; try (econstructor; eauto; fail). congruence. Qed.

Lemma tags_pieces_b : forall u asc b b' ns ps, ~ In (lit "b") ns ->
  tags_pieces idna u asc b ns ps -> tags_pieces idna u asc b' ns ps.
Proof.
  intros u asc b b' ns ps Hn H. induction H; [constructor|]. constructor.
  - eapply tag_pieces_b; [|eassumption]. intros ->. apply Hn. left; reflexivity.
  - apply IHtags_pieces. intros X. apply Hn. right. exact X.
Qed.

Lemma tags_before : forall u asc b before ps after qs, Forall2 (tag_pieces idna u asc b [59]) before ps ->
  after <> [] -> tags_pieces idna u asc b after qs -> tags_pieces idna u asc b (before ++ after) (concat ps ++ qs).
Proof.
  intros u asc b before ps after qs H Ha K. induction H; [exact K|]. cbn [app concat]. rewrite <- app_assoc.
  constructor; [|exact IHForall2]. replace (is_nil (l ++ after)) with false; [exact H|].
  destruct l; [destruct after; [congruence|]|]; reflexivity.
Qed.

(** the value with any text for the signature *)
Lemma whole_laid : forall u f est pre post n b, formattable idna u -> format_ok f ->
  value_parts idna u f est pre post ->
  exists ps, tags_pieces idna u (of_ascii_only f) b (tag_names u f) ps
    /\ laid (of_indentation f) ps (pre ++ fst (layout (of_line_width f) (of_indentation f) n (letters b)) ++ post).
Proof.
  intros u f est pre post n b Hu Hf (before & after & ps & qs & i1 & i2 & x & y & HN & Hps & Hqs & L1 & L2 & L3).
  assert (NoDup (tag_names u f)) as ND.
  { eapply Permutation_NoDup; [symmetry; apply tag_names_perm; exact Hf|]. eapply default_names_nodup; eassumption. }
  rewrite HN in ND. pose proof (NoDup_remove_2 _ _ _ ND) as Hnb.
  exists (concat ps ++ (mkPiece Start (lit "b=") 1 :: letters b ++ [glued (if is_nil after then [] else [59])]) ++ qs).
  split.
  - rewrite HN. apply tags_before; [|discriminate|].
    + assert (~ In (lit "b") before) as Hb. { intros X. apply Hnb. apply in_app_iff. auto. }
      clear - Hps Hb. induction Hps; constructor.
      * eapply tag_pieces_b; [|eassumption]. intros ->. apply Hb. left; reflexivity.
      * apply IHHps. intros X. apply Hb. right. exact X.
    + constructor; [constructor|]. eapply tags_pieces_b; [|eassumption]. intros X. apply Hnb. apply in_app_iff. auto.
  - pose proof (layout_laid (of_line_width f) (of_indentation f) (concat ps ++ [mkPiece Start (lit "b=") 1])
                  (length (of_header_name f) + 1)%nat) as A. rewrite L1 in A. cbn [fst] in A.
    pose proof (layout_laid (of_line_width f) (of_indentation f) (letters b) n) as B.
    pose proof (layout_laid (of_line_width f) (of_indentation f) (glued (if is_nil after then [] else [59]) :: qs) i2) as D.
    rewrite L3 in D. cbn [fst] in D.
    replace (concat ps ++ (mkPiece Start (lit "b=") 1 :: letters b ++ [glued (if is_nil after then [] else [59])]) ++ qs)
      with ((concat ps ++ [mkPiece Start (lit "b=") 1]) ++ letters b ++ glued (if is_nil after then [] else [59]) :: qs).
    2:{ rewrite <- !app_assoc. cbn [app]. rewrite <- !app_assoc. reflexivity. }
    apply laid_app; [exact A|]. apply laid_app; [exact B|exact D].
Qed.

End Whole.

(** ** Visible text with folding *)

Inductive vtext (F : str -> Prop) (P : char -> Prop) : str -> Prop :=
| vt_nil : vtext F P []
| vt_cons : forall f c s, F f -> P c -> vtext F P s -> vtext F P (f ++ c :: s).

Lemma vtext_app : forall F P s t, vtext F P s -> vtext F P t -> vtext F P (s ++ t).
Proof. intros F P s t H K. induction H; [exact K|]. rewrite <- app_assoc. constructor; auto. Qed.

Lemma vtext_plain : forall (F : str -> Prop) P s, F [] -> Forall P s -> vtext F P s.
Proof. intros F P s H K. induction K; [constructor|]. apply (vt_cons F P [] x l); auto. Qed.

Lemma vtext_mono : forall (F F' : str -> Prop) (P P' : char -> Prop) s, (forall f, F f -> F' f) -> (forall c, P c -> P' c) ->
  vtext F P s -> vtext F' P' s.
Proof. intros F F' P P' s HF HP H. induction H; constructor; auto. Qed.

Definition piece_ok (F : str -> Prop) (P : char -> Prop) (p : Piece) : Prop :=
  match p_text p with
  | [] => p_joint p = Glued
  | c :: r => P c /\ vtext F P r
  end.

Lemma laid_vtext : forall (F : str -> Prop) P ind ps t, (forall j s, sep_ok ind j s -> F s) ->
  Forall (piece_ok F P) ps -> laid ind ps t -> vtext F P t.
Proof.
  intros F P ind ps t HF Hp H. induction H; [constructor|]. inv Hp. specialize (IHlaid H4).
  unfold piece_ok in H3. destruct (p_text p) as [|c r].
  - rewrite H3 in H. cbn in H. subst sep. exact IHlaid.
  - destruct H3 as [Hc Hr]. cbn [app]. apply vt_cons; [eapply HF; eassumption|exact Hc|]. apply vtext_app; assumption.
Qed.

Definition fold_of (Q : str -> Prop) (f : str) : Prop :=
  wsps f \/ exists w0 w, wsps w0 /\ Q w /\ f = w0 ++ [13; 10] ++ w.

Lemma vtext_lines : forall Q s, vtext (fold_of Q) visible s -> indented Q s.
Proof.
  intros Q s H. unfold indented. cbv zeta. induction H as [|f c s Hf Hc _ (first & more & -> & H1 & H2)].
  - exists [], []. repeat split; constructor.
  - assert (forall w, wsps w -> Forall (fun c => visible c \/ c = 32 \/ c = 9) w) as W.
    { intros w. apply Forall_impl. intros a; tauto. }
    destruct Hf as [Hf|(w0 & w & Hw & Hq & ->)].
    + exists (f ++ c :: first), more. split; [|split; [|exact H2]].
      * unfold unlines. rewrite <- app_assoc. reflexivity.
      * apply Forall_app. split; [auto|]. constructor; auto.
    + exists w0, ((w ++ c :: first) :: more). split; [|split; [auto|]].
      * unfold unlines. cbn [map concat]. rewrite <- !app_assoc. cbn [app]. reflexivity.
      * constructor; [|exact H2]. exists w, c, first. auto.
Qed.

Lemma as_bytes_unlines : forall first more, as_bytes (unlines first more) = unlines (as_bytes first) (map as_bytes more).
Proof.
  intros first more. unfold unlines. rewrite as_bytes_app. f_equal. rewrite map_map.
  induction more as [|l more IH]; [reflexivity|]. cbn [map concat]. rewrite as_bytes_app, IH. reflexivity.
Qed.

Lemma indented_body : forall s, indented (fun w => wsps w /\ w <> []) s -> field_body (as_bytes s).
Proof.
  intros s (first & more & -> & H1 & H2). exists (as_bytes first), (map as_bytes more).
  assert (forall l, Forall (fun c => visible c \/ c = 32 \/ c = 9) l -> plain l) as X.
  { intros l. apply Forall_impl. unfold visible. intros c; lia. }
  split; [apply as_bytes_unlines|]. split; [apply plain_bytes; auto|].
  apply Forall_map. eapply Forall_impl; [|exact H2]. intros l (w & c & r & -> & (Hw & Hn) & Hc & Hr). cbn beta in *.
  rewrite plain_bytes, folded_bytes. split.
  - apply X. apply Forall_app. split; [|constructor; auto]. eapply Forall_impl; [|exact Hw]. intros a; tauto.
  - split.
    + destruct w as [|a w]; [congruence|]. inv Hw. cbn. eauto.
    + exists c. split; [apply in_app_iff; right; left; reflexivity|]. unfold visible in Hc. lia.
Qed.

(** ** Domains as written *)

Definition dchar (c : char) : Prop := letter_digit c \/ c = 45 \/ c = 46 \/ c = 95.

Lemma dotted_chars : forall ls, Forall dns_label ls -> Forall dchar (dotted ls).
Proof.
  induction 1 as [|l ls (_ & H & _) _ IH]; cbn [dotted]; [constructor|].
  assert (Forall dchar l) as X. { eapply Forall_impl; [|exact H]. unfold dchar. intros; tauto. }
  destruct ls; [exact X|]. apply Forall_app. split; [exact X|]. apply Forall_app. split; [|exact IH].
  constructor; [|constructor]. unfold dchar. tauto.
Qed.

Lemma dns_name_chars : forall a tld, dns_name a tld -> Forall dchar a.
Proof. intros a tld (_ & init & final & -> & H & _). apply dotted_chars. exact H. Qed.

Lemma lower_dchar : forall a, Forall dchar a -> Forall dchar (lower a).
Proof.
  intros a H. unfold lower. apply Forall_map. eapply Forall_impl; [|exact H]. intros c. unfold dchar, letter_digit.
  destruct ((65 <=? c) && (c <=? 90)) eqn:E; lia.
Qed.

Lemma domain_nonempty : forall idna s tld, idna_ok idna -> domain_text idna s tld -> s <> [].
Proof. intros idna s tld I ((a & A & D) & _) ->. rewrite (io_empty _ I _ A) in D. destruct D as [D _]. cbn in D. lia. Qed.

Lemma lower_chars : forall s, (forall c, In c (lower s) -> c < 128 -> dchar c) -> Forall (fun c => dchar c \/ 128 <= c) s.
Proof.
  intros s X. apply Forall_forall. intros c Hc. destruct (N.lt_ge_cases c 128) as [L|L]; [left|tauto].
  set (c' := if (65 <=? c) && (c <=? 90) then c + 32 else c).
  assert (In c' (lower s)) as H. { unfold lower, c'. apply in_map_iff. exists c. auto. }
  assert (c' < 128) as L'. { unfold c'. destruct ((65 <=? c) && (c <=? 90)) eqn:E; lia. }
  specialize (X _ H L'). unfold c', dchar, letter_digit in *. destruct ((65 <=? c) && (c <=? 90)) eqn:E; lia.
Qed.

Lemma written_chars : forall idna asc d t tld, idna_ok idna -> domain_text idna d tld -> written_form idna asc d t ->
  Forall (fun c => dchar c \/ 128 <= c) t.
Proof.
  intros idna asc d t tld I ((a & A & D) & tu & U) (x & X & H). apply dns_name_chars in D. apply lower_dchar in D. rewrite Forall_forall in D.
  assert (lower t = lower x) as E by (destruct H as [[H ->]|[_ ->]]; auto). apply lower_chars. rewrite E. intros c Hc Lc. apply D.
  destruct asc.
  - assert (x = a) as <- by congruence. exact Hc.
  - rewrite U in X. cbn [fst] in X. subst x. exact (io_composed _ I _ _ _ A U c Hc Lc).
Qed.

Lemma written_domain : forall idna asc d t tld, idna_ok idna -> domain_text idna d tld -> written_form idna asc d t ->
  domain_text idna t tld /\ idna_to_ascii idna t = idna_to_ascii idna d
  /\ (Forall is_scalar d -> Forall is_scalar t).
Proof.
  intros idna asc d t tld I D (x & X & H). pose proof D as ((a & A & Da) & tu & U).
  destruct H as [[_ ->]|[_ ->]]; [auto|].
  destruct (io_forms _ I _ _ _ A U) as (F1 & F2 & F3 & F4 & F5).
  destruct asc.
  - assert (x = a) as -> by congruence. split; [|split].
    + split; [eauto|]. destruct (idna_to_unicode idna a) as [y b]. cbn in F3. subst b. eauto.
    + congruence.
    + intros _. eapply Forall_impl; [|exact (dns_name_chars _ _ Da)]. intros c. unfold dchar, letter_digit, is_scalar. lia.
  - rewrite U in X. cbn [fst] in X. subst x. split; [|split].
    + split; [eauto|]. destruct (idna_to_unicode idna tu) as [y b]. cbn in F5. subst b. eauto.
    + congruence.
    + exact F1.
Qed.

(** ** C34 *)

Lemma visible_dec : forall s, forallb (fun c => (33 <=? c) && (c <=? 126)) s = true -> Forall visible s.
Proof.
  intros s H. rewrite forallb_forall in H. apply Forall_forall. intros c Hc. specialize (H c Hc). unfold visible. lia.
Qed.

Lemma qp_visible : forall special asc bs q, Forall is_byte bs -> qp_encoding special asc bs q -> Forall visible q.
Proof.
  intros special asc bs q Hb H. apply Forall_forall. intros c Hc.
  destruct (encoding_chars _ _ _ _ Hb H c Hc) as [X|(_ & X & _)]; unfold hex_or_eq, dkim_safe, visible in *; lia.
Qed.

Lemma base64_visible : forall bs t, Forall is_byte bs -> base64 bs t -> Forall visible t.
Proof.
  intros bs t Hb H. rewrite (base64_det _ _ _ H (encode_base64_spec _ Hb)). apply Forall_forall. intros c Hc.
  pose proof (encode_base64_chars _ Hb c Hc). unfold visible. lia.
Qed.

Lemma name_visible : forall n, field_name n -> n <> [] /\ Forall visible n.
Proof. intros n [H1 H2]. split; [exact H1|]. eapply Forall_impl; [|exact H2]. unfold ftext, visible. intros; lia. Qed.

Lemma digits_visible : forall t n, decimal_text t n -> Forall visible t.
Proof. intros t n (_ & H & _). eapply Forall_impl; [|exact H]. unfold visible. intros; lia. Qed.

Lemma colons_visible : forall stop names, Forall visible stop -> Forall field_name names ->
  Forall (fun t => t <> [] /\ Forall visible t) (with_colons stop names).
Proof.
  intros stop names Hs H. induction H as [|n ns Hn _ IH]; cbn [with_colons]; [constructor|].
  destruct (name_visible n Hn) as [N1 N2].
  assert (forall s, Forall visible s -> n ++ s <> [] /\ Forall visible (n ++ s)) as X.
  { intros s S. split; [destruct n; [congruence|discriminate]|]. apply Forall_app; auto. }
  destruct ns; constructor; auto; try apply X; auto. constructor; [unfold visible; lia|constructor].
Qed.

Section Visible.
Variable idna : Idna.
Variable u : USig.
Variable F : str -> Prop.
Hypothesis IO : idna_ok idna.
Hypothesis F0 : F [].
Hypothesis Td : domain_text idna (u_domain u) true.
Hypothesis Ts : domain_text idna (u_selector u) false.
Hypothesis Ti : forall i, u_identity u = Some i -> domain_text idna (id_domain i) true
  /\ forall l, id_local_part i = Some l -> Forall is_scalar l.
Hypothesis Th : Forall field_name (u_signed_headers u).
Hypothesis Tb : Forall is_byte (u_body_hash u).
Hypothesis Tz : Forall (fun f => field_name (fst f) /\ Forall is_byte (snd f)) (u_copied_headers u).
Hypothesis Te : forall n v, In (n, v) (u_ext_tags u) -> tag_name_text n /\ vtext F visible v.

Lemma piece_visible : forall j n c t e, p_joint (mkPiece j (c :: t) e) = n -> Forall visible (c :: t) ->
  piece_ok F visible (mkPiece j (c :: t) e).
Proof. intros j n c t e _ H. inv H. split; [assumption|]. apply vtext_plain; assumption. Qed.

Lemma piece_start : forall j t e, t <> [] -> Forall visible t -> piece_ok F visible (mkPiece j t e).
Proof. intros j [|c t] e Hn H; [congruence|]. eapply piece_visible; [reflexivity|exact H]. Qed.

Lemma letters_ok : forall s, Forall visible s -> Forall (piece_ok F visible) (letters s).
Proof. intros s H. unfold letters. apply Forall_map. eapply Forall_impl; [|exact H]. intros c Hc. split; [exact Hc|constructor]. Qed.

Lemma glued_ok : forall s, Forall visible s -> piece_ok F visible (glued s).
Proof. intros [|c s] H; [reflexivity|]. inv H. split; [assumption|]. apply vtext_plain; assumption. Qed.

Lemma domain_visible : forall asc d t tld, domain_text idna d tld -> written_form idna asc d t -> Forall visible t.
Proof.
  intros asc d t tld D W. apply (written_chars _ _ _ _ _ IO D) in W.
  eapply Forall_impl; [|exact W]. unfold dchar, letter_digit, visible. intros; lia.
Qed.

Lemma copied_ok : forall asc fs ps, Forall (fun f => field_name (fst f) /\ Forall is_byte (snd f)) fs ->
  copied_pieces asc fs ps -> Forall (piece_ok F visible) ps.
Proof.
  intros asc fs ps H K. induction K; [constructor|]. inv H. cbn [fst snd] in *. destruct H3 as [N1 N2].
  destruct (name_visible n N1) as [N3 N4].
  constructor; [apply piece_start; [discriminate|constructor; [unfold visible; lia|constructor]]|].
  constructor; [apply piece_start; [destruct n; [congruence|discriminate]|apply Forall_app; split; [exact N4|constructor; [unfold visible; lia|constructor]]]|].
  apply Forall_app. split; [|auto]. apply letters_ok. eapply qp_visible; eassumption.
Qed.

Lemma tag_ok : forall asc b stop n ps, Forall visible b -> stop = [] \/ stop = [59] ->
  tag_pieces idna u asc b stop n ps -> Forall (piece_ok F visible) ps.
Proof.
  intros asc b stop n ps Hb Hs H.
  assert (Forall visible stop) as Hv. { destruct Hs as [->| ->]; [constructor|]. constructor; [unfold visible; lia|constructor]. }
  assert (forall (l t : list N) e, l <> [] -> forallb (fun c => (33 <=? c) && (c <=? 126)) l = true -> Forall visible t ->
    piece_ok F visible (mkPiece Start (l ++ t) e)) as X.
  { intros l t e L1 L2 L3. apply piece_start; [destruct l; [congruence|discriminate]|]. apply Forall_app. split; [apply visible_dec; exact L2|exact L3]. }
  assert (forall t, Forall visible t -> Forall visible (t ++ stop)) as Y. { intros t T. apply Forall_app; auto. }
  inversion H; subst; clear H;
    try (constructor; [apply X; [discriminate|reflexivity|]|constructor]).
  - exact Hv.
  - apply Y. apply visible_dec. destruct (u_algorithm u); reflexivity.
  - apply Y. apply visible_dec. unfold canon_text. destruct (c_header _), (c_body _); reflexivity.
  - apply Y. eapply domain_visible; [|eassumption]; eassumption.
  - apply Y. eapply domain_visible; [|eassumption]; eassumption.
  - destruct (Ti i H0) as [I1 I2]. apply Forall_app. split; [|apply Forall_app; split].
    + eapply qp_visible; [|eassumption]. destruct (id_local_part i); cbn [unwrap_or]; [|constructor].
      apply as_bytes_bytes. auto.
    + constructor; [unfold visible; lia|constructor].
    + apply Y. eapply domain_visible; [|eassumption]; eassumption.
  - apply Y. eapply digits_visible; eassumption.
  - apply Y. eapply digits_visible; eassumption.
  - apply Y. eapply digits_visible; eassumption.
  - pose proof (colons_visible stop _ Hv Th) as K. rewrite H0 in K. inv K.
    constructor; [apply X; [discriminate|reflexivity|tauto]|]. apply Forall_map.
    eapply Forall_impl; [|eassumption]. cbn beta. intros t0 [K1 K2]. apply piece_start; assumption.
  - constructor; [apply (X (lit "bh=") []); [discriminate|reflexivity|constructor]|]. apply Forall_app. split.
    + apply letters_ok. eapply base64_visible; eassumption.
    + constructor; [apply glued_ok; exact Hv|constructor].
  - constructor; [apply (X (lit "b=") []); [discriminate|reflexivity|constructor]|]. apply Forall_app. split.
    + apply letters_ok. exact Hb.
    + constructor; [apply glued_ok; exact Hv|constructor].
  - rewrite H0 in Tz. inv Tz. cbn [fst snd] in *. destruct H4 as [N1 N2]. destruct (name_visible n0 N1) as [N3 N4].
    constructor; [apply X; [discriminate|reflexivity|apply Forall_app; split; [exact N4|constructor; [unfold visible; lia|constructor]]]|].
    apply Forall_app. split; [apply letters_ok; eapply qp_visible; eassumption|].
    apply Forall_app. split; [eapply copied_ok; eassumption|]. constructor; [apply glued_ok; exact Hv|constructor].
  - destruct (Te _ _ H0) as [(c & n' & -> & N1 & N2) V]. constructor; [|constructor].
    split; [unfold alpha in N1; unfold visible; lia|]. cbn [app]. apply vtext_app.
    + apply vtext_plain; [exact F0|]. eapply Forall_impl; [|exact N2]. unfold alnum_, alpha, visible. intros; lia.
    + apply (vt_cons F visible [] 61); [exact F0|unfold visible; lia|]. apply vtext_app; [exact V|]. apply vtext_plain; assumption.
Qed.

Lemma tags_ok : forall asc b ns ps, Forall visible b -> tags_pieces idna u asc b ns ps -> Forall (piece_ok F visible) ps.
Proof.
  intros asc b ns ps Hb H. induction H; [constructor|]. apply Forall_app. split; [|assumption].
  eapply tag_ok; [exact Hb| |eassumption]. destruct (is_nil ns); auto.
Qed.

End Visible.

Section Outputs.
Variable E : Env.
Notation idna := (env_idna E).

(** What is known of the parts of a signature made. *)
Record sound_usig (u : USig) : Prop := mkSound {
  su_domain : domain_text idna (u_domain u) true;
  su_selector : domain_text idna (u_selector u) false;
  su_identity : forall i, u_identity u = Some i -> domain_text idna (id_domain i) true
    /\ (forall l, id_local_part i = Some l -> Forall is_scalar l)
    /\ (lower (id_domain i) = lower (u_domain u) \/ ascii_subdomain idna (id_domain i) (u_domain u));
  su_names : Forall (fun n => field_name n /\ ~ In 59 n) (u_signed_headers u);
  su_from : exists n, In n (u_signed_headers u) /\ same_name n (lit "From");
  su_hash : Forall is_byte (u_body_hash u);
  su_copied : Forall (fun f => (field_name (fst f) /\ ~ In 59 (fst f)) /\ Forall is_byte (snd f)) (u_copied_headers u);
  su_ext : forall n v, In (n, v) (u_ext_tags u) ->
    tag_name_text n /\ (v = [] \/ tag_value_text v) /\ ~ In n written_tags;
  su_ext_nodup : NoDup (map fst (u_ext_tags u))
}.

Lemma same_name_semi : forall n m, same_name n m -> In 59 n -> In 59 m.
Proof.
  intros n m H X. unfold same_name in H.
  assert (In 59 (lower n)) as Y. { unfold lower. apply in_map_iff. exists 59. auto. }
  rewrite H in Y. unfold lower in Y. apply in_map_iff in Y as (c & Hc & Hi).
  destruct ((65 <=? c) && (c <=? 90)) eqn:B; [lia|]. subst. exact Hi.
Qed.

Lemma to_sign_sound : forall now r headers body u, crypto_typed E -> request_typed E r -> header_fields headers ->
  (exists f, In f headers /\ same_name (fst f) (lit "From")) -> first_of (request_checks E r) None ->
  to_sign E now r headers body u -> sound_usig u.
Proof.
  intros now r headers body u HC T Hh Hf Hck (hashed & l & names & copied & Hb & Hn & Hcp & ->).
  pose proof (accepted E r T Hck) as (A1 & A2 & A3 & A4 & A5 & A6 & A7 & A8 & A9 & _).
  pose proof T as (Td & Ts & Ti & Tm & _).
  unfold header_fields in Hh. rewrite Forall_forall in Hh.
  destruct (signed_names_from E r headers names T Hck Hf Hn) as [Hfrom Hsemi].
  assert (Forall (fun n => field_name n /\ ~ In 59 n) names) as Hnames.
  { apply Forall_forall. intros n X. split; [|auto]. inv Hn.
    - apply in_rev in X. apply in_map_iff in X as (f & <- & Hi).
      destruct (selected_in _ _ _ _ _ H0 Hi) as [X Y]. apply (Hh f X).
    - specialize (Tm _ H). rewrite Forall_forall in Tm. auto. }
  constructor; cbn [u_domain u_selector u_identity u_signed_headers u_body_hash u_copied_headers u_ext_tags].
  - exact Td.
  - exact Ts.
  - intros i Hi. destruct (Ti i Hi). auto.
  - exact Hnames.
  - exact Hfrom.
  - apply HC.
  - unfold copied_headers in Hcp. destruct (r_copy_headers E r); [|subst; constructor].
    apply Forall_forall. intros f X. destruct (selected_in _ _ _ _ _ Hcp X) as [Y (n & Z1 & Z2)].
    destruct (Hh f Y) as (K1 & _ & K2). repeat split; try assumption; try apply K1.
    intros S. rewrite Forall_forall in Hnames. apply (Hnames n Z1). eapply same_name_semi; eassumption.
  - exact A6.
  - exact A5.
Qed.

Lemma more_vtext : forall m, more_vals m -> vtext ofws valchar m.
Proof. induction 1; [constructor|]. constructor; assumption. Qed.

Lemma value_vtext : forall v, tag_value_text v -> vtext ofws visible v.
Proof.
  intros v H. apply tag_value_more in H as (c & m & -> & Hc & Hm).
  apply (vtext_mono ofws ofws valchar visible); [auto|unfold valchar, visible; intros; lia|].
  apply (vt_cons ofws valchar [] c); [left; reflexivity|exact Hc|apply more_vtext; exact Hm].
Qed.

Lemma wsps_crlf : forall f, ofws f -> one_line f -> wsps f.
Proof.
  intros f [->|(w & Hw & _ & [->|(w0 & _ & ->)])] H; [constructor|exact Hw|]. exfalso. apply (H w0 w). reflexivity.
Qed.

Lemma vtext_one_line : forall P s, vtext ofws P s -> one_line s -> vtext wsps P s.
Proof.
  intros P s H. induction H; intros L; [constructor|]. constructor; [|assumption|].
  - apply wsps_crlf; [assumption|]. intros x y ->. apply (L x (y ++ c :: s)). rewrite <- !app_assoc. reflexivity.
  - apply IHvtext. intros x y ->. apply (L (f ++ c :: x) y). rewrite <- !app_assoc. reflexivity.
Qed.

Lemma sound_visible : forall u (F : str -> Prop) asc b ns ps, idna_ok idna -> sound_usig u -> F [] -> Forall visible b ->
  (forall v, In v (map snd (u_ext_tags u)) -> vtext F visible v) ->
  tags_pieces idna u asc b ns ps -> Forall (piece_ok F visible) ps.
Proof.
  intros u F asc b ns ps IO S F0 Hb Hx H. eapply tags_ok; try eassumption.
  - apply S.
  - apply S.
  - intros i Hi. destruct (su_identity _ S i Hi) as (X & Y & _). auto.
  - eapply Forall_impl; [|apply S]. cbn. tauto.
  - apply S.
  - eapply Forall_impl; [|apply S]. cbn. tauto.
  - intros n v Hi. split; [apply (su_ext _ S _ _ Hi)|]. apply Hx. apply in_map_iff. exists (n, v). auto.
Qed.

Lemma sep_fold : forall (Q : str -> Prop) ind j s, Q ind -> sep_ok ind j s -> fold_of Q s.
Proof.
  intros Q ind j s HQ H. assert (wsps []) as W0 by constructor. assert (wsps [32]) as W1 by (constructor; auto).
  destruct j; cbn in H; unfold fold_of; [destruct H as [->| ->]|destruct H as [->| ->]|subst]; auto; right; exists [], ind; auto.
Qed.

Theorem value_indented : forall u f est pre post n b, idna_ok idna -> sound_usig u -> formattable idna u -> format_ok f ->
  value_parts idna u f est pre post -> Forall visible b ->
  let v := pre ++ fst (layout (of_line_width f) (of_indentation f) n (letters b)) ++ post in
  field_body (as_bytes v)
  /\ (Forall one_line (map snd (u_ext_tags u)) -> indented (fun w => w = of_indentation f) v).
Proof.
  intros u f est pre post n b IO S Hu Hf Hv Hb v.
  destruct (whole_laid idna u f est pre post n b Hu Hf Hv) as (ps & Hps & L). fold v in L.
  destruct Hf as (_ & F1 & F2 & _). split.
  - apply indented_body. apply vtext_lines. eapply laid_vtext; [| |exact L].
    + intros j s. apply sep_fold. auto.
    + eapply sound_visible; [eassumption|eassumption|left; constructor|exact Hb| |exact Hps].
      intros x Hx. apply in_map_iff in Hx as ((m & y) & Ey & Hi). cbn in Ey. subst y.
      destruct (su_ext _ S _ _ Hi) as (_ & [->|V] & _); [constructor|]. apply value_vtext in V.
      eapply vtext_mono; [| |exact V]; [|auto]. intros g [->|(w & W1 & W2 & [->|(w0 & W0 & ->)])].
      * left. constructor.
      * left. exact W1.
      * right. exists w0, w. auto.
  - intros Hone. apply vtext_lines. eapply laid_vtext; [| |exact L].
    + intros j s. apply sep_fold. auto.
    + eapply sound_visible; [eassumption|eassumption|left; constructor|exact Hb| |exact Hps].
      intros x Hx. rewrite Forall_forall in Hone. pose proof (Hone x Hx) as Ho. apply in_map_iff in Hx as ((m & y) & Ey & Hi). cbn in Ey. subst y.
      destruct (su_ext _ S _ _ Hi) as (_ & [->|V] & _); [constructor|]. apply value_vtext in V.
      apply vtext_one_line in V; [|exact Ho]. eapply vtext_mono; [| |exact V]; [|auto]. intros g W. left. exact W.
Qed.

(** ** C34: every output *)

Lemma sign_bytes : forall k a d s, crypto_typed E -> primitive_sign E k a d = Some s -> Forall is_byte s.
Proof.
  intros k a d s (_ & H1 & H2) H. destruct k; cbn in H; [eapply H1; exact H|]. injection H as <-. apply H2.
Qed.

(** what is behind an output *)
Record output_of (now : N) (r : SignRequest E) (headers : list HeaderField) (body : list byte) (o : SigningOutput)
    (u : USig) (pre post : str) (sig : list byte) (n : nat) (b64 : str) : Prop := mkOutputOf {
  oo_typed : request_typed E r;
  oo_checks : first_of (request_checks E r) None;
  oo_u : to_sign E now r headers body u;
  oo_sound : sound_usig u;
  oo_formattable : formattable idna u;
  oo_format : format_ok (r_format E r);
  oo_length : forall l, u_body_length u = Some l -> l < 2^64;
  oo_parts : value_parts idna u (r_format E r) (b64_length E (r_signing_key E r)) pre post;
  oo_sign : primitive_sign E (r_signing_key E r) (r_algorithm E r)
      (header_digest E u headers (of_header_name (r_format E r)) (pre ++ post)) = Some sig;
  oo_bytes : Forall is_byte sig;
  oo_b64 : base64 sig b64;
  oo_column : column (of_header_name (r_format E r)) pre n;
  oo_o : o = mkOutput (of_header_name (r_format E r))
             (pre ++ fst (layout (of_line_width (r_format E r)) (of_indentation (r_format E r)) n
                            (letters b64)) ++ post)
             (mkSig (u_algorithm u) sig (u_body_hash u) (u_canonicalization u) (u_domain u)
                (u_signed_headers u) (u_identity u) (u_body_length u) (u_selector u) (u_timestamp u)
                (u_expiration u) (u_copied_headers u) (u_ext_tags u))
}.

Theorem run_output : forall order headers rs chunks clock results j r o, crypto_typed E ->
  Forall (request_typed E) rs -> header_fields headers -> (forall l, Permutation (order l) l) ->
  sign_message E order headers rs chunks clock = Val (Ok results) ->
  nth_error rs j = Some r -> nth_error results j = Some (Ok o) ->
  exists u pre post sig n b64, output_of (clock j) r headers (concat chunks) o u pre post sig n b64.
Proof.
  intros order headers rs chunks clock results j r o HC HT Hh Ho Hs Hr Hj.
  destruct (sign_results E order headers rs chunks clock results HC HT Hh Ho Hs) as (Hf & _ & _ & H).
  destruct (H j r _ Hr Hj) as (T & Hck & R). inversion R; subst.
  exists u, pre, post, sig, n, b64. constructor; auto.
  - eapply to_sign_sound; eassumption.
  - eapply to_sign_formattable; eassumption.
  - eapply accepted_format; eassumption.
  - eapply sign_bytes; eassumption.
Qed.

Theorem output_field : forall now r headers body o u pre post sig n b64, idna_ok idna ->
  output_of now r headers body o u pre post sig n b64 ->
  to_header_field o = Val (so_header_name o, as_bytes (so_header_value o))
  /\ so_header_name o = of_header_name (r_format E r)
  /\ field_name (so_header_name o) /\ field_body (as_bytes (so_header_value o))
  /\ (Forall one_line (map snd (r_ext_tags E r)) ->
      indented (fun w => w = of_indentation (r_format E r)) (so_header_value o)).
Proof.
  intros now r headers body o u pre post sig n b64 IO H.
  assert (Forall visible b64) as Hb. { apply (base64_visible _ _ (oo_bytes _ _ _ _ _ _ _ _ _ _ _ H) (oo_b64 _ _ _ _ _ _ _ _ _ _ _ H)). }
  destruct (value_indented u (r_format E r) _ pre post n b64 IO (oo_sound _ _ _ _ _ _ _ _ _ _ _ H)
    (oo_formattable _ _ _ _ _ _ _ _ _ _ _ H) (oo_format _ _ _ _ _ _ _ _ _ _ _ H) (oo_parts _ _ _ _ _ _ _ _ _ _ _ H) Hb) as [V1 V2].
  assert (u_ext_tags u = r_ext_tags E r) as X.
  { destruct (oo_u _ _ _ _ _ _ _ _ _ _ _ H) as (? & ? & ? & ? & _ & _ & _ & ->). reflexivity. }
  rewrite X in V2. rewrite (oo_o _ _ _ _ _ _ _ _ _ _ _ H). cbn [so_header_name so_header_value].
  assert (field_name (of_header_name (r_format E r))) as N. { apply header_name_valid. apply (oo_format _ _ _ _ _ _ _ _ _ _ _ H). }
  repeat split; try assumption; try apply N.
  unfold to_header_field. cbn [so_header_name so_header_value].
  rewrite (proj2 (field_body_new_spec _ _) (conj eq_refl V1)). 
  destruct (field_name_new (of_header_name (r_format E r))) as [m|] eqn:Em.
  - apply field_name_new_spec in Em as [-> _]. reflexivity.
  - exfalso. pose proof (proj2 (field_name_new_spec (of_header_name (r_format E r)) _) (conj eq_refl N)). congruence.
Qed.

End Outputs.
