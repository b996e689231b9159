(** Proofs about the width of lines, with line breaks in the values of additional tags. *)

From Coq Require Import String List.
From Verif Require Import Base Utf8 Canon BodyHash Header Domain Signature Crypto TagList Format Sign
  SpecText SpecCanon SpecHash SpecHeader SpecTag SpecDomain SpecSig SpecFormat SpecSign SpecOutput SpecWidth
  Lib Utf8Proofs Base64Proofs HeaderProofs DomainProofs TagListProofs
  FormatProofs SignProofs OutputProofs OutputParse WidthProofs.
Import ListNotations.
Open Scope N_scope.

(** ** Lines of a text *)

Definition text_of (ls : list str) : str := match ls with [] => [] | f :: m => unlines f m end.

Lemma text_two : forall a b r, text_of (a :: b :: r) = a ++ [13; 10] ++ text_of (b :: r).
Proof. reflexivity. Qed.

Lemma text_prefix : forall x f m, x ++ text_of (f :: m) = text_of ((x ++ f) :: m).
Proof. intros. unfold text_of, unlines. apply app_assoc. Qed.

Lemma text_join : forall q l t ls, l ++ t = text_of ls -> ls <> [] -> text_of (q ++ [l]) ++ t = text_of (q ++ ls).
Proof.
  induction q as [|a q IH]; intros l t ls E N.
  - cbn [app]. rewrite <- E. unfold text_of, unlines. cbn [map concat]. rewrite app_nil_r. reflexivity.
  - specialize (IH l t ls E N). destruct q as [|b q].
    + destruct ls as [|f m]; [congruence|]. cbn [app] in *. rewrite !text_two. rewrite <- !app_assoc, IH. reflexivity.
    + cbn [app] in *. rewrite !text_two, <- !app_assoc, IH. reflexivity.
Qed.

Lemma text_length : forall ls l, In l ls -> (length l <= length (text_of ls))%nat.
Proof.
  induction ls as [|a [|b r] IH]; intros l H; [destruct H| |].
  - destruct H as [->|[]]. unfold text_of, unlines. rewrite app_length. lia.
  - rewrite text_two, !app_length. destruct H as [->|H]; [lia|]. specialize (IH l H). lia.
Qed.

Lemma split_last : forall (ls : list str), ls <> [] -> exists q l, ls = q ++ [l].
Proof. intros ls H. destruct (exists_last H) as (q & l & E). exists q, l. exact E. Qed.

Lemma nlb_app : forall a b, no_line_break a -> no_line_break b -> no_line_break (a ++ b).
Proof. intros a b [A1 A2] [B1 B2]. split; rewrite in_app_iff; tauto. Qed.

(** ** Lines of the layout *)

Definition splits (s : str) : Prop := exists ls, ls <> [] /\ s = text_of ls /\ Forall no_line_break ls.

Section Lines.
Variable w : nat.
Variables ind name : str.
Variable P : list Piece.
Hypothesis ind_clean : no_line_break ind.

Notation ok := (folded_ok w ind name P).

(** state of the last line; [free]: something may be glued to it *)
Definition last_free2 (l : str) : Prop :=
  (length l <= w)%nat \/ exists p q, In p P /\ ind ++ p_text p = text_of (q ++ [l]) /\ Forall no_line_break (q ++ [l]).
Definition last_ok2 (free : bool) (l : str) : Prop := if free then last_free2 l else ok l.

Lemma ok_piece : forall p stop ls l, In p P -> stop = [] \/ stop = [59] -> ind ++ p_text p ++ stop = text_of ls ->
  Forall no_line_break ls -> In l ls -> ok l.
Proof. intros p stop [|f m] l Hp Hs E F I; [destruct I|]. eapply fo_piece; eassumption. Qed.

Lemma last_ok_ok : forall free l, last_ok2 free l -> ok l.
Proof.
  intros [] l H; [|exact H]. destruct H as [H|(p & q & Hp & E & F)]; [apply fo_fits; exact H|].
  apply (ok_piece p [] (q ++ [l])); auto.
  - rewrite app_nil_r. exact E.
  - apply in_app_iff. right. left. reflexivity.
Qed.

Lemma layout_folded : forall ps free i t j l, layout w ind i ps = (t, j) -> (length l <= i)%nat -> incl ps P ->
  Forall (fun p => splits (p_text p)) ps -> glue_ok free ps -> last_ok2 free l -> no_line_break l ->
  exists ls, ls <> [] /\ l ++ t = text_of ls /\ Forall (fun l => no_line_break l /\ ok l) ls.
Proof using ind_clean.
  induction ps as [|p ps IH]; intros free i t j l L Hi Hin Hp Hg Hl Hn.
  - cbn in L. injection L as <- <-. exists [l]. split; [discriminate|]. split; [unfold text_of, unlines; cbn; rewrite !app_nil_r; reflexivity|].
    constructor; [|constructor]. split; [exact Hn|]. eapply last_ok_ok; exact Hl.
  - cbn [layout] in L. destruct (attach w ind i p) as [t1 i1] eqn:A. destruct (layout w ind i1 ps) as [t2 i2] eqn:L2.
    injection L as <- <-. inv Hp. assert (In p P) as Ip by (apply Hin; left; reflexivity).
    assert (incl ps P) as Hin' by (intros q Hq; apply Hin; right; exact Hq).
    destruct H1 as (pl & Pn & Ep & Fp). destruct pl as [|f m]; [congruence|]. clear Pn. inversion Fp as [|? ? F1 F2]; subst.
    unfold attach in A. cbv zeta in A.
    assert (forall sep, no_line_break sep -> (i + length sep + length (p_text p) + p_extra p <= w)%nat ->
      (sep ++ p_text p, (i + length sep + length (p_text p))%nat) = (t1, i1) -> glue_ok true ps ->
      exists ls, ls <> [] /\ l ++ t1 ++ t2 = text_of ls /\ Forall (fun l => no_line_break l /\ ok l) ls) as On.
    { intros sep S Hw X G. injection X as <- <-.
      destruct (split_last ((l ++ sep ++ f) :: m)) as (q & l' & Eq); [discriminate|].
      assert (l ++ sep ++ p_text p = text_of (q ++ [l'])) as Et.
      { rewrite <- Eq, Ep. rewrite <- text_prefix. rewrite !text_prefix. rewrite <- !text_prefix. unfold text_of, unlines. rewrite <- ?app_assoc. reflexivity. }
      assert (Forall no_line_break (q ++ [l'])) as Fq.
      { rewrite <- Eq. constructor; [|exact F2]. apply nlb_app; [exact Hn|]. apply nlb_app; assumption. }
      assert (forall x, In x (q ++ [l']) -> (length x <= i + length sep + length (p_text p))%nat) as Len.
      { intros x Hx. apply text_length in Hx. rewrite <- Et, !app_length in Hx. lia. }
      apply Forall_app in Fq as [Fq1 Fq2]. inversion Fq2 as [|? ? Fl _]; subst.
      destruct (IH true _ _ _ l' L2) as (ls & Ln & E & F); auto.
      - apply Len. apply in_app_iff. right. left. reflexivity.
      - left. specialize (Len l'). rewrite in_app_iff in Len. cbn [In] in Len. specialize (Len ltac:(tauto)). lia.
      - exists (q ++ ls). split; [destruct q; [exact Ln|discriminate]|]. split.
        + rewrite <- (text_join q l' t2 ls E Ln), <- Et. rewrite <- !app_assoc. reflexivity.
        + apply Forall_app. split; [|exact F]. rewrite Forall_forall in *. intros x Hx. split; [auto|]. apply fo_fits.
          specialize (Len x). rewrite in_app_iff in Len. specialize (Len ltac:(tauto)). lia. }
    assert (([13; 10] ++ ind ++ p_text p, (length ind + length (p_text p))%nat) = (t1, i1) -> glue_ok true ps -> ok l ->
      exists ls, ls <> [] /\ l ++ t1 ++ t2 = text_of ls /\ Forall (fun l => no_line_break l /\ ok l) ls) as Next.
    { intros X G Hk. injection X as <- <-.
      destruct (split_last ((ind ++ f) :: m)) as (q & l' & Eq); [discriminate|].
      assert (ind ++ p_text p = text_of (q ++ [l'])) as Et by (rewrite <- Eq, Ep; apply text_prefix).
      assert (Forall no_line_break (q ++ [l'])) as Fq.
      { rewrite <- Eq. constructor; [|exact F2]. apply nlb_app; assumption. }
      pose proof Fq as Fq0. apply Forall_app in Fq0 as [Fq1 Fq2]. inversion Fq2 as [|? ? Fl _]; subst.
      destruct (IH true _ _ _ l' L2) as (ls & Ln & E & F); auto.
      - assert (In l' (q ++ [l'])) as Hx by (apply in_app_iff; right; left; reflexivity).
        apply text_length in Hx. rewrite <- Et, app_length in Hx. lia.
      - right. exists p, q. auto.
      - exists (l :: q ++ ls). split; [discriminate|]. split.
        + replace (l :: q ++ ls) with ([l] ++ q ++ ls) by reflexivity.
          assert (q ++ ls <> []) as Nq by (destruct q; [exact Ln|discriminate]).
          destruct (q ++ ls) as [|b r] eqn:Eb; [congruence|]. cbn [app]. rewrite text_two, <- Eb.
          rewrite <- (text_join q l' t2 ls E Ln), <- Et. cbn [app]. rewrite <- !app_assoc. reflexivity.
        + constructor; [auto|]. apply Forall_app. split; [|exact F].
          rewrite Forall_forall in *. intros x Hx. split; [auto|]. apply (ok_piece p [] (q ++ [l'])); auto.
          * rewrite app_nil_r. exact Et.
          * rewrite Forall_forall. exact Fq.
          * apply in_app_iff. auto. }
    assert (ok l) as Hk by (eapply last_ok_ok; exact Hl).
    cbn [glue_ok] in Hg. destruct (p_joint p).
    + destruct (Nat.leb _ _) eqn:Le.
      * apply Nat.leb_le in Le. apply (On [32]); auto. split; intros [X|[]]; discriminate X.
      * apply Next; auto.
    + destruct (Nat.leb _ _) eqn:Le.
      * apply Nat.leb_le in Le. apply (On []); auto. split; intros [].
      * apply Next; auto.
    + cbn [app] in A. injection A as <- <-. destruct Hg as [[Eg G]|(-> & Eg & G)].
      * rewrite Eg in *. cbn [app length] in *. eapply (IH free); try eassumption. lia.
      * rewrite Eg in *. rewrite app_assoc. eapply (IH false); [exact L2| |exact Hin'|assumption|exact G| |].
        -- rewrite app_length. cbn [length]. lia.
        -- destruct Hl as [Hl|(p' & q & Hq & E & F)].
           ++ destruct (Nat.eq_dec (length l) w) as [Ew|Ew]; [apply fo_semicolon; exact Ew|].
              apply fo_fits. rewrite app_length. cbn [length]. lia.
           ++ apply (ok_piece p' [59] (q ++ [l ++ [59]])); auto.
              ** rewrite app_assoc, E. apply text_join; [|discriminate]. unfold text_of, unlines. cbn. rewrite app_nil_r. reflexivity.
              ** apply Forall_app in F as [F1' F2']. apply Forall_app. split; [exact F1'|]. inv F2'. constructor; [|constructor].
                 apply nlb_app; [assumption|]. split; intros [X|[]]; discriminate X.
              ** apply in_app_iff. right. left. reflexivity.
        -- apply nlb_app; [exact Hn|]. split; intros [X|[]]; discriminate X.
Qed.

End Lines.

(** ** Every output *)

Lemma vtext_splits : forall c s, visible c -> vtext ofws visible s -> splits (c :: s).
Proof.
  intros c s Hc H.
  assert (vtext (fold_of wsps) visible (c :: s)) as V.
  { apply (vt_cons (fold_of wsps) visible [] c s); [left; constructor|exact Hc|].
    eapply vtext_mono; [| |exact H]; [|auto]. intros g [->|(w & W1 & W2 & [->|(w0 & W0 & ->)])].
    - left. constructor.
    - left. exact W1.
    - right. exists w0, w. auto. }
  apply vtext_lines in V as (first & more & E & F1 & F2). exists (first :: more). split; [discriminate|]. split; [exact E|].
  constructor; [apply visible_clean; exact F1|]. eapply Forall_impl; [|exact F2].
  intros l (w & x & r & -> & Hw & Hx & Hr). apply visible_clean. apply Forall_app. split; [|constructor; auto].
  eapply Forall_impl; [|exact Hw]. cbn. tauto.
Qed.

Lemma pieces_split : forall E u asc b ns ps, idna_ok (env_idna E) -> sound_usig E u -> Forall visible b ->
  tags_pieces (env_idna E) u asc b ns ps -> Forall (fun p => splits (p_text p)) ps.
Proof.
  intros E u asc b ns ps IO S Hb H.
  assert (Forall (piece_ok ofws visible) ps) as K.
  { eapply sound_visible; [eassumption|eassumption|left; reflexivity|exact Hb| |exact H].
    intros x Hx. apply in_map_iff in Hx as ((m & y) & Ey & Hi). cbn in Ey. subst y.
    destruct (su_ext _ _ S _ _ Hi) as (_ & [->|V] & _); [constructor|]. apply value_vtext in V. exact V. }
  eapply Forall_impl; [|exact K]. intros p Hp. unfold piece_ok in Hp. destruct (p_text p) as [|c r].
  - exists [[]]. split; [discriminate|]. split; [reflexivity|]. constructor; [split; intros []|constructor].
  - destruct Hp as [Hc Hr]. apply vtext_splits; assumption.
Qed.

(** the signature data with only the additional tags of some names *)
Definition only_ext (names : list str) (u : USig) : USig :=
  mkUSig (u_algorithm u) (u_body_hash u) (u_canonicalization u) (u_domain u) (u_signed_headers u) (u_identity u)
    (u_body_length u) (u_selector u) (u_timestamp u) (u_expiration u) (u_copied_headers u)
    (filter (fun t => mem_str (fst t) names) (u_ext_tags u)).

Lemma only_sound : forall E names u, sound_usig E u -> sound_usig E (only_ext names u).
Proof.
  intros E names u []. constructor; try assumption; cbn [only_ext u_ext_tags].
  - intros n v H. apply filter_In in H as [H _]. auto.
  - clear - su_ext_nodup. induction (u_ext_tags u) as [|t ts IH]; [constructor|]. cbn [map] in su_ext_nodup. inv su_ext_nodup.
    cbn [filter]. destruct (mem_str _ _); auto. cbn [map]. constructor; auto. intros X. apply H1.
    apply in_map_iff in X as (y & Ey & Hy). apply filter_In in Hy as [Hy _]. apply in_map_iff. eauto.
Qed.

Lemma only_pieces : forall idna u asc b stop names n ps, In n names -> tag_pieces idna u asc b stop n ps ->
  tag_pieces idna (only_ext names u) asc b stop n ps.
Proof.
  intros idna u asc b stop names n ps Hn H. destruct H; try (econstructor; eassumption; fail); try (constructor; assumption; fail).
  - apply (tp_a idna (only_ext names u)).
  - apply (tp_c idna (only_ext names u)).
  - apply (tp_ext idna (only_ext names u)). cbn [only_ext u_ext_tags]. apply filter_In. split; [assumption|]. cbn [fst]. apply mem_str_In. exact Hn.
Qed.

Lemma only_forall : forall idna u asc b stop names ns ps, incl ns names -> Forall2 (tag_pieces idna u asc b stop) ns ps ->
  Forall2 (tag_pieces idna (only_ext names u) asc b stop) ns ps.
Proof.
  intros idna u asc b stop names ns ps Hi H. induction H; constructor.
  - apply only_pieces; [apply Hi; left; reflexivity|assumption].
  - apply IHForall2. intros n Hn. apply Hi. right. exact Hn.
Qed.

Theorem output_folded : forall E now r headers body o u pre post sig n b64, idna_ok (env_idna E) -> signature_sizes (env_crypto E) ->
  output_of E now r headers body o u pre post sig n b64 -> breaks_after_b u (r_format E r) ->
  exists ps first more,
    tags_pieces (env_idna E) u (of_ascii_only (r_format E r)) b64 (tag_names u (r_format E r)) ps
    /\ so_header_name o ++ [58] ++ so_header_value o = unlines first more
    /\ Forall (fun l => no_line_break l
         /\ folded_ok (of_line_width (r_format E r)) (of_indentation (r_format E r)) (so_header_name o) ps l) (first :: more).
Proof.
  intros E now r headers body o u pre post sig n b64 IO (Z1 & Z2) H Hone.
  pose proof (oo_sound _ _ _ _ _ _ _ _ _ _ _ _ H) as S.
  pose proof (oo_format _ _ _ _ _ _ _ _ _ _ _ _ H) as F. pose proof (oo_formattable _ _ _ _ _ _ _ _ _ _ _ _ H) as FU.
  pose proof (oo_bytes _ _ _ _ _ _ _ _ _ _ _ _ H) as Hb. pose proof (oo_b64 _ _ _ _ _ _ _ _ _ _ _ _ H) as H64.
  assert (length b64 = b64_length E (r_signing_key E r)) as Hlen.
  { rewrite (base64_length _ _ H64). unfold b64_length. pose proof (oo_sign _ _ _ _ _ _ _ _ _ _ _ _ H) as P.
    destruct (r_signing_key E r); cbn in P.
    - rewrite (Z1 _ _ _ _ P). reflexivity.
    - injection P as <-. rewrite Z2. reflexivity. }
  destruct (whole_layout (env_idna E) u (r_format E r) _ pre post n b64 FU F (oo_parts _ _ _ _ _ _ _ _ _ _ _ _ H)
    (oo_column _ _ _ _ _ _ _ _ _ _ _ _ H) Hlen) as (ps & j & Hps & L).
  { intros before after ps HN Hps. set (u' := only_ext before u).
    assert (tags_pieces (env_idna E) u' (of_ascii_only (r_format E r)) [] (before ++ [lit "v"]) (concat ps ++ [start (lit "v=1" ++ [])] ++ [])) as Q.
    { apply tags_before; [|discriminate|].
      - apply only_forall; [intros x Hx; exact Hx|exact Hps].
      - constructor; [apply tp_v|constructor]. }
    apply pieces_clean in Q; [|assumption|apply only_sound; exact S|constructor|].
    - apply Forall_app in Q. apply Q.
    - apply Forall_forall. intros v Hv. apply in_map_iff in Hv as ((m & y) & Ey & Hi). cbn in Ey. subst y.
      unfold u' in Hi. cbn [only_ext u_ext_tags] in Hi. apply filter_In in Hi as [Hi Hm]. cbn [fst] in Hm. apply mem_str_In in Hm.
      eapply Hone; eassumption. }
  exists ps. rewrite (oo_o _ _ _ _ _ _ _ _ _ _ _ _ H). cbn [so_header_name so_header_value].
  destruct (layout_folded (of_line_width (r_format E r)) (of_indentation (r_format E r)) (of_header_name (r_format E r)) ps) with
    (ps := ps) (free := false) (i := (length (of_header_name (r_format E r)) + 1)%nat) (l := of_header_name (r_format E r) ++ [58])
    (t := pre ++ fst (layout (of_line_width (r_format E r)) (of_indentation (r_format E r)) n (letters b64)) ++ post) (j := j)
    as (ls & Ln & Eu & Fo).
  - apply visible_clean. eapply Forall_impl; [|apply F]. intros c; tauto.
  - exact L.
  - rewrite app_length. cbn [length]. lia.
  - intros p Hp. exact Hp.
  - eapply pieces_split; [eassumption|eassumption| |exact Hps]. eapply base64_visible; eassumption.
  - eapply tags_shape. exact Hps.
  - apply fo_name.
  - apply visible_clean. apply Forall_app. split; [|constructor; [unfold visible; lia|constructor]].
    pose proof (header_name_valid _ (proj1 F)) as N. apply name_visible in N as [_ N]. eapply Forall_impl; [|exact N]. auto.
  - destruct ls as [|first more]; [congruence|]. exists first, more. split; [exact Hps|]. split; [|exact Fo].
    change (unlines first more) with (text_of (first :: more)). rewrite <- Eu, <- app_assoc. reflexivity.
Qed.

(** In the default order, additional tags come last. *)
Lemma default_after_b : forall E u f, of_tag_order f = None -> sound_usig E u -> breaks_after_b u f.
Proof.
  intros E u f D S before after n v HN Hn Hi. exfalso.
  unfold tag_names in HN. rewrite D in HN. unfold default_names in HN.
  assert (~ In (lit "b") (map fst (u_ext_tags u))) as Nb.
  { intros X. apply in_map_iff in X as ((m & y) & Em & X). cbn in Em. subst m. destruct (su_ext _ _ S _ _ X) as (_ & _ & N).
    apply N. right. right. left. reflexivity. }
  assert (exists l, map (fun p => lit (fst p)) (filter snd (tag_table u)) = before ++ l) as (l & HT).
  { apply app_eq_app in HN as (l & [[X Y]|[X Y]]); [exists l; exact X|]. exfalso. apply Nb. rewrite Y. apply in_app_iff. right. left. reflexivity. }
  destruct (su_ext _ _ S _ _ Hi) as (_ & _ & N). apply N.
  assert (In n (map (fun p => lit (fst p)) (filter snd (tag_table u)))) as I. { rewrite HT. apply in_app_iff. auto. }
  apply in_map_iff in I as (p & <- & Ip). apply filter_In in Ip as [Ip _]. clear - Ip. unfold tag_table, written_tags in *.
  cbn [map In] in *. repeat (destruct Ip as [<-|Ip]; [cbn [fst]; tauto|]). destruct Ip.
Qed.
