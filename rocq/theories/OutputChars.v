(** Characters of a signer's output: Unicode characters in any case, and only
    US-ASCII if requested. *)

From Coq Require Import String List.
From Verif Require Import Base Utf8 Canon BodyHash Header Domain Signature Crypto TagList Format Sign
  SpecText SpecCanon SpecHash SpecHeader SpecTag SpecDomain SpecSig SpecFormat SpecSign SpecOutput
  Lib Utf8Proofs Base64Proofs HeaderProofs DomainProofs QPProofs QPDecode TagListProofs HeaderCanonProofs
  SigProofs FormatProofs SignProofs OutputProofs WidthProofs.
Import ListNotations.
Open Scope N_scope.

Section Chars.
Variable idna : Idna.
Variable u : USig.
Variable asc : bool.
Variable P : char -> Prop.
Hypothesis A : forall c, c < 128 -> P c.
Hypothesis Pd : forall t, written_form idna asc (u_domain u) t -> Forall P t.
Hypothesis Ps : forall t, written_form idna asc (u_selector u) t -> Forall P t.
Hypothesis Pi : forall i t, u_identity u = Some i -> written_form idna asc (id_domain i) t -> Forall P t.
Hypothesis Pq : forall special bs q, Forall is_byte bs -> qp_encoding special asc bs q -> Forall P q.
Hypothesis Pe : forall n v, In (n, v) (u_ext_tags u) -> Forall P v.
Hypothesis Ti : forall i l, u_identity u = Some i -> id_local_part i = Some l -> Forall is_scalar l.
Hypothesis Th : Forall field_name (u_signed_headers u).
Hypothesis Tb : Forall is_byte (u_body_hash u).
Hypothesis Tz : Forall (fun f => field_name (fst f) /\ Forall is_byte (snd f)) (u_copied_headers u).
Hypothesis Te : forall n v, In (n, v) (u_ext_tags u) -> tag_name_text n.

Notation good := (fun p => Forall P (p_text p)).

Lemma ascii_chars : forall s, forallb (fun c => c <? 128) s = true -> Forall P s.
Proof using A. clear Pd Ps Pi Pq Pe Ti Th Tb Tz Te. intros s H. rewrite forallb_forall in H. apply Forall_forall. intros c Hc. apply A. specialize (H c Hc). lia. Qed.

Lemma letters_chars : forall s, Forall P s -> Forall good (letters s).
Proof using. intros s H. unfold letters. apply Forall_map. eapply Forall_impl; [|exact H]. intros c Hc. cbn. constructor; [exact Hc|constructor]. Qed.

Lemma field_name_chars : forall n, field_name n -> Forall P n.
Proof using A. clear Pd Ps Pi Pq Pe Ti Th Tb Tz Te. intros n [_ H]. eapply Forall_impl; [|exact H]. intros c Hc. apply A. unfold ftext in Hc. lia. Qed.

Lemma base64_chars : forall bs t, Forall is_byte bs -> base64 bs t -> Forall P t.
Proof using A. clear Pd Ps Pi Pq Pe Ti Th Tb Tz Te.
  intros bs t Hb H. rewrite (base64_det _ _ _ H (encode_base64_spec _ Hb)). apply Forall_forall. intros c Hc.
  pose proof (encode_base64_chars _ Hb c Hc). apply A. lia.
Qed.

Lemma copied_chars : forall fs ps, Forall (fun f => field_name (fst f) /\ Forall is_byte (snd f)) fs ->
  copied_pieces asc fs ps -> Forall good ps.
Proof.
  intros fs ps H K. induction K; [constructor|]. inv H. cbn [fst snd] in *. destruct H3 as [N1 N2].
  constructor; [cbn; constructor; [apply A; lia|constructor]|].
  constructor; [cbn; apply Forall_app; split; [apply field_name_chars; exact N1|constructor; [apply A; lia|constructor]]|].
  apply Forall_app. split; [|auto]. apply letters_chars. eapply Pq; eassumption.
Qed.

Lemma tag_chars : forall b stop n ps, Forall P b -> stop = [] \/ stop = [59] ->
  tag_pieces idna u asc b stop n ps -> Forall good ps.
Proof.
  intros b stop n ps Hb Hs H.
  assert (Forall P stop) as Hv. { destruct Hs as [->| ->]; [constructor|]. constructor; [apply A; lia|constructor]. }
  assert (forall (l t : list N) e, forallb (fun c => c <? 128) l = true -> Forall P t -> good (mkPiece Start (l ++ t) e)) as X.
  { intros l t e L2 L3. cbn. apply Forall_app. split; [apply ascii_chars; exact L2|exact L3]. }
  assert (forall t, Forall P t -> Forall P (t ++ stop)) as Y. { intros t T. apply Forall_app; auto. }
  inversion H; subst; clear H;
    try (constructor; [apply X; [reflexivity|]|constructor]).
  - exact Hv.
  - apply Y. apply ascii_chars. destruct (u_algorithm u); reflexivity.
  - apply Y. apply ascii_chars. unfold canon_text. destruct (c_header _), (c_body _); reflexivity.
  - apply Y. apply Pd. assumption.
  - apply Y. apply Ps. assumption.
  - apply Forall_app. split; [|apply Forall_app; split].
    + eapply Pq; [|eassumption]. destruct (id_local_part i) eqn:I; cbn [unwrap_or]; [|constructor].
      apply as_bytes_bytes. eapply Ti; eassumption.
    + constructor; [apply A; lia|constructor].
    + apply Y. eapply Pi; eassumption.
  - apply Y. destruct H1 as (_ & H1 & _). eapply Forall_impl; [|exact H1]. intros c Hc; cbn beta in Hc; apply A; lia.
  - apply Y. destruct H1 as (_ & H1 & _). eapply Forall_impl; [|exact H1]. intros c Hc; cbn beta in Hc; apply A; lia.
  - apply Y. destruct H1 as (_ & H1 & _). eapply Forall_impl; [|exact H1]. intros c Hc; cbn beta in Hc; apply A; lia.
  - assert (Forall (Forall P) (with_colons stop (u_signed_headers u))) as K.
    { clear - Th Hv A. induction Th as [|n ns Hn _ IH]; cbn [with_colons]; [constructor|].
      assert (Forall P n) as Pn. { destruct Hn as [_ Hn]. eapply Forall_impl; [|exact Hn]. intros c Hc. apply A. unfold ftext in Hc. lia. }
      inv Th. assert (Forall P (n ++ [58])) as Pc by (apply Forall_app; split; [exact Pn|constructor; [apply A; lia|constructor]]).
      destruct ns; constructor; auto. apply Forall_app; auto. }
    rewrite H0 in K. inv K. constructor; [apply X; [reflexivity|assumption]|]. apply Forall_map. assumption.
  - constructor; [apply ascii_chars; reflexivity|]. apply Forall_app. split.
    + apply letters_chars. eapply base64_chars; eassumption.
    + constructor; [exact Hv|constructor].
  - constructor; [apply ascii_chars; reflexivity|]. apply Forall_app. split.
    + apply letters_chars. exact Hb.
    + constructor; [exact Hv|constructor].
  - rewrite H0 in Tz. inv Tz. cbn [fst snd] in *. destruct H4 as [N1 N2].
    constructor; [apply X; [reflexivity|apply Forall_app; split; [apply field_name_chars; exact N1|constructor; [apply A; lia|constructor]]]|].
    apply Forall_app. split; [apply letters_chars; eapply Pq; eassumption|].
    apply Forall_app. split; [eapply copied_chars; eassumption|]. constructor; [exact Hv|constructor].
  - pose proof (Te _ _ H0) as (c & n' & -> & N1 & N2). constructor; [|constructor]. cbn [p_text start].
    apply Forall_app. split; [|apply Forall_app; split; [constructor; [apply A; lia|constructor]|apply Y; eapply Pe; eassumption]].
    constructor; [apply A; unfold alpha in N1; lia|]. eapply Forall_impl; [|exact N2]. unfold alnum_, alpha. intros x Hx. apply A. lia.
Qed.

Lemma tags_chars : forall b ns ps, Forall P b -> tags_pieces idna u asc b ns ps -> Forall good ps.
Proof.
  intros b ns ps Hb H. induction H; [constructor|]. apply Forall_app. split; [|assumption].
  eapply tag_chars; [exact Hb| |eassumption]. destruct (is_nil ns); auto.
Qed.

Lemma laid_chars : forall ind ps s, Forall P ind -> Forall good ps -> laid ind ps s -> Forall P s.
Proof using A. clear Pd Ps Pi Pq Pe Ti Th Tb Tz Te.
  intros ind ps s Hi Hp H. induction H; [constructor|]. inv Hp. apply Forall_app. split; [|apply Forall_app; auto].
  assert (Forall P ([13; 10] ++ ind)) as X. { constructor; [apply A; lia|]. constructor; [apply A; lia|exact Hi]. }
  destruct (p_joint p); cbn in H.
  - destruct H as [-> | ->]; [constructor; [apply A; lia|constructor]|exact X].
  - destruct H as [-> | ->]; [constructor|exact X].
  - subst. constructor.
Qed.

End Chars.

Theorem output_chars : forall E now r headers body o u pre post sig n b64 (P : char -> Prop),
  output_of E now r headers body o u pre post sig n b64 ->
  (forall c, c < 128 -> P c) ->
  (forall t, written_form (env_idna E) (of_ascii_only (r_format E r)) (u_domain u) t -> Forall P t) ->
  (forall t, written_form (env_idna E) (of_ascii_only (r_format E r)) (u_selector u) t -> Forall P t) ->
  (forall i t, u_identity u = Some i -> written_form (env_idna E) (of_ascii_only (r_format E r)) (id_domain i) t -> Forall P t) ->
  (forall special bs q, Forall is_byte bs -> qp_encoding special (of_ascii_only (r_format E r)) bs q -> Forall P q) ->
  (forall n v, In (n, v) (u_ext_tags u) -> Forall P v) ->
  Forall P (so_header_value o).
Proof.
  intros E now r headers body o u pre post sig n b64 P O A Pd Ps Pi Pq Pe.
  pose proof (oo_sound _ _ _ _ _ _ _ _ _ _ _ _ O) as S.
  destruct (whole_laid (env_idna E) u (r_format E r) _ pre post n b64 (oo_formattable _ _ _ _ _ _ _ _ _ _ _ _ O)
    (oo_format _ _ _ _ _ _ _ _ _ _ _ _ O) (oo_parts _ _ _ _ _ _ _ _ _ _ _ _ O)) as (ps & T & L).
  rewrite (oo_o _ _ _ _ _ _ _ _ _ _ _ _ O). cbn [so_header_value].
  assert (Forall P (of_indentation (r_format E r))) as I.
  { destruct (oo_format _ _ _ _ _ _ _ _ _ _ _ _ O) as (_ & W & _). apply Forall_forall. intros c Hc.
    unfold wsps in W. rewrite Forall_forall in W. specialize (W c Hc). apply A. lia. }
  refine (laid_chars P A _ ps _ I _ L). clear L I.
  refine (tags_chars (env_idna E) u (of_ascii_only (r_format E r)) P A Pd Ps Pi Pq Pe _ _ _ _ _ b64 _ ps _ T).
  - intros i l Hi Hl. destruct (su_identity _ _ S i Hi) as (_ & X & _). auto.
  - eapply Forall_impl; [|exact (su_names _ _ S)]. cbn. tauto.
  - apply S.
  - eapply Forall_impl; [|exact (su_copied _ _ S)]. cbn. tauto.
  - intros m v Hm. destruct (su_ext _ _ S m v Hm) as [X _]. exact X.
  - apply base64_chars with (bs := sig); [exact A|apply (oo_bytes _ _ _ _ _ _ _ _ _ _ _ _ O)|apply (oo_b64 _ _ _ _ _ _ _ _ _ _ _ _ O)].
Qed.

Lemma encoding_scalar : forall special asc bs q, Forall is_byte bs -> qp_encoding special asc bs q -> Forall is_scalar q.
Proof.
  intros special asc bs q Hb H. assert (forall b, is_byte b -> Forall is_scalar (hex_escape b)) as X.
  { intros b B. apply Forall_forall. intros c Hc. pose proof (hex_escape_chars b c B Hc) as Y. unfold hex_or_eq, is_scalar in *. lia. }
  induction H.
  - constructor.
  - apply Forall_app in Hb as [_ Hb]. constructor; auto.
  - apply Forall_app in Hb as [H2 Hb]. apply Forall_app. split; [|auto]. clear - H2 X. induction H2; cbn [flat_map]; [constructor|]. apply Forall_app; auto.
  - inv Hb. apply Forall_app. auto.
Qed.

Lemma encoding_ascii : forall special bs q, Forall is_byte bs -> qp_encoding special true bs q -> Forall (fun c => c < 128) q.
Proof.
  intros special bs q Hb H. assert (forall b, is_byte b -> Forall (fun c => c < 128) (hex_escape b)) as X.
  { intros b B. apply Forall_forall. intros c Hc. pose proof (hex_escape_chars b c B Hc) as Y. unfold hex_or_eq in *. lia. }
  induction H.
  - constructor.
  - apply Forall_app in Hb as [_ Hb]. constructor; auto. destruct H0 as (_ & _ & H0). auto.
  - apply Forall_app in Hb as [H2 Hb]. apply Forall_app. split; [|auto]. clear - H2 X. induction H2; cbn [flat_map]; [constructor|]. apply Forall_app; auto.
  - inv Hb. apply Forall_app. auto.
Qed.

Theorem output_unicode : forall E now r headers body o u pre post sig n b64, idna_ok (env_idna E) ->
  output_of E now r headers body o u pre post sig n b64 ->
  Forall is_scalar (r_domain E r) -> Forall is_scalar (r_selector E r) ->
  (forall i, r_identity E r = Some i -> Forall is_scalar (id_domain i)) ->
  Forall (Forall is_scalar) (map snd (r_ext_tags E r)) -> Forall is_scalar (so_header_value o).
Proof.
  intros E now r headers body o u pre post sig n b64 IO O R1 R2 R3 X.
  pose proof (oo_sound _ _ _ _ _ _ _ _ _ _ _ _ O) as S.
  destruct (oo_u _ _ _ _ _ _ _ _ _ _ _ _ O) as (? & ? & ? & ? & _ & _ & _ & U).
  eapply output_chars; [exact O|..].
  - intros c Hc. unfold is_scalar. lia.
  - intros t W. eapply (written_domain _ _ _ _ _ IO (su_domain _ _ S)) in W as (_ & _ & W). apply W. rewrite U. exact R1.
  - intros t W. eapply (written_domain _ _ _ _ _ IO (su_selector _ _ S)) in W as (_ & _ & W). apply W. rewrite U. exact R2.
  - intros i t Hi W. destruct (su_identity _ _ S i Hi) as (D & _). eapply (written_domain _ _ _ _ _ IO D) in W as (_ & _ & W). apply W.
    apply R3. rewrite U in Hi. exact Hi.
  - intros. eapply encoding_scalar; eassumption.
  - intros m v Hm. rewrite U in Hm. cbn [u_ext_tags] in Hm. rewrite Forall_forall in X. apply X. apply (in_map snd) in Hm. exact Hm.
Qed.

Theorem output_scalar : forall E now r headers body o u pre post sig n b64, idna_ok (env_idna E) ->
  output_of E now r headers body o u pre post sig n b64 -> readable_request E r now ->
  Forall (Forall is_scalar) (map snd (r_ext_tags E r)) -> Forall is_scalar (so_header_value o).
Proof.
  intros E now r headers body o u pre post sig n b64 IO O R X. destruct (rr_scalar _ _ _ R) as (R1 & R2 & R3).
  exact (output_unicode _ _ _ _ _ _ _ _ _ _ _ _ IO O R1 R2 R3 X).
Qed.

Lemma written_ascii : forall idna d t tld, domain_text idna d tld -> written_form idna true d t -> Forall (fun c => c < 128) t.
Proof.
  intros idna d t tld ((a & A & D) & _) (x & X & W). assert (x = a) as -> by congruence. apply dns_name_chars in D.
  assert (Forall (fun c => c < 128) a) as Z by (eapply Forall_impl; [|exact D]; unfold dchar, letter_digit; intros; lia).
  destruct W as [[W ->]|[_ ->]]; [|exact Z]. apply Forall_forall. intros c Hc.
  assert (In ((if (65 <=? c) && (c <=? 90) then c + 32 else c)) (lower d)) as Y by (unfold lower; apply in_map_iff; eauto).
  rewrite W in Y. unfold lower in Y. apply in_map_iff in Y as (y & Y1 & Y2). rewrite Forall_forall in Z. specialize (Z y Y2).
  cbn beta in Z. destruct ((65 <=? c) && (c <=? 90)) eqn:E1, ((65 <=? y) && (y <=? 90)) eqn:E2; lia.
Qed.

Theorem output_ascii : forall E now r headers body o u pre post sig n b64, 
  output_of E now r headers body o u pre post sig n b64 -> of_ascii_only (r_format E r) = true ->
  Forall (Forall (fun c => c < 128)) (map snd (r_ext_tags E r)) -> Forall (fun c => c < 128) (so_header_value o).
Proof.
  intros E now r headers body o u pre post sig n b64 O F X.
  pose proof (oo_sound _ _ _ _ _ _ _ _ _ _ _ _ O) as S.
  destruct (oo_u _ _ _ _ _ _ _ _ _ _ _ _ O) as (? & ? & ? & ? & _ & _ & _ & U).
  eapply output_chars; [exact O|..]; rewrite ?F.
  - auto.
  - intros t W. eapply written_ascii; [exact (su_domain _ _ S)|exact W].
  - intros t W. eapply written_ascii; [exact (su_selector _ _ S)|exact W].
  - intros i t Hi W. destruct (su_identity _ _ S i Hi) as (D & _). eapply written_ascii; eassumption.
  - intros. eapply encoding_ascii; eassumption.
  - intros m v Hm. rewrite U in Hm. cbn [u_ext_tags] in Hm. rewrite Forall_forall in X. apply X. apply (in_map snd) in Hm. exact Hm.
Qed.
