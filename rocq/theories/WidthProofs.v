(** Proofs about the width of lines. *)

From Coq Require Import String List.
From Verif Require Import Base Utf8 Canon BodyHash Header Domain Signature Crypto TagList Format Sign
  SpecText SpecCanon SpecHash SpecHeader SpecTag SpecDomain SpecSig SpecFormat SpecSign SpecOutput
  Lib Utf8Proofs Base64Proofs HeaderProofs DomainProofs TagListProofs
  FormatProofs SignProofs OutputProofs OutputParse.
Import ListNotations.
Open Scope N_scope.

(** ** The column *)

Lemma one_line_app : forall l s, one_line l -> ~ In 10 s -> one_line (l ++ s).
Proof.
  intros l s H K x y E. revert x E H. induction l as [|c l IH]; intros x E H.
  - apply K. cbn in E. rewrite E. apply in_app_iff. right. right. left. reflexivity.
  - destruct x as [|a x].
    + cbn in E. injection E as -> E. destruct l as [|d l].
      * cbn in E. apply K. rewrite E. left. reflexivity.
      * cbn in E. injection E as -> E. apply (H [] l). reflexivity.
    + cbn in E. injection E as -> E. apply (IH x E). intros x' y' ->. apply (H (a :: x') y'). reflexivity.
Qed.

Lemma column_more : forall name a i s, column name a i -> ~ In 10 s -> column name (a ++ s) (i + length s).
Proof.
  intros name a i s [(b & l & -> & H & ->)|[H ->]] K.
  - left. exists b, (l ++ s). rewrite <- !app_assoc. split; [reflexivity|]. split; [|rewrite app_length; reflexivity].
    apply one_line_app; [exact H|exact K].
  - right. split; [|rewrite app_length; lia]. apply one_line_app; [exact H|exact K].
Qed.

Lemma column_break : forall name a l, ~ In 10 l -> column name (a ++ [13; 10] ++ l) (length l).
Proof.
  intros name a l K. left. exists a, l. split; [reflexivity|]. split; [|reflexivity].
  apply (one_line_app [] l); [|exact K]. intros [|] y; discriminate.
Qed.

Definition clean (ps : list Piece) : Prop := Forall (fun p => no_line_break (p_text p)) ps.

Lemma layout_column : forall w ind name ps i t j a, no_line_break ind -> clean ps -> column name a i -> layout w ind i ps = (t, j) ->
  column name (a ++ t) j.
Proof.
  intros w ind name. induction ps as [|p ps IH]; intros i t j a Hi Hp Hc L.
  - cbn in L. injection L as <- <-. rewrite app_nil_r. exact Hc.
  - cbn [layout] in L. destruct (attach w ind i p) as [t1 i1] eqn:A. destruct (layout w ind i1 ps) as [t2 i2] eqn:L2.
    injection L as <- <-. inv Hp. rewrite app_assoc. apply (IH i1 t2 i2 (a ++ t1)); auto.
    destruct H1 as [_ N]. destruct Hi as [_ Ni]. unfold attach in A. cbv zeta in A.
    assert (forall sep, ~ In 10 sep -> column name (a ++ sep ++ p_text p) (i + length sep + length (p_text p))) as On.
    { intros sep Hs. replace (i + length sep + length (p_text p))%nat with (i + length (sep ++ p_text p))%nat by (rewrite app_length; lia).
      apply column_more; [exact Hc|]. rewrite in_app_iff. tauto. }
    assert (column name (a ++ [13; 10] ++ ind ++ p_text p) (length ind + length (p_text p))) as Next.
    { rewrite <- app_length. apply column_break. rewrite in_app_iff. tauto. }
    destruct (p_joint p); [destruct (Nat.leb _ _)|destruct (Nat.leb _ _)|]; injection A as <- <-;
      first [exact Next|apply (On [32]); intros [X|[]]; discriminate X|apply (On []); intros []].
Qed.

(** the cursor depends on lengths only *)
Lemma letters_same : forall w ind s s' i, length s = length s' ->
  snd (layout w ind i (letters s)) = snd (layout w ind i (letters s')).
Proof.
  intros w ind. induction s as [|c s IH]; intros [|c' s'] i H; try discriminate; [reflexivity|].
  unfold letters in *. cbn [map layout]. unfold attach. cbn [p_joint p_text p_extra inner length].
  injection H as H. destruct (Nat.leb _ _);
    (match goal with |- context [layout w ind ?k (map _ s)] => specialize (IH s' k H) end;
     destruct (layout w ind _ (map _ s)), (layout w ind _ (map _ s')); exact IH).
Qed.

(** ** The whole value as one layout *)

Lemma whole_layout : forall idna u f est pre post n b, formattable idna u -> format_ok f ->
  value_parts idna u f est pre post -> column (of_header_name f) pre n -> length b = est ->
  (forall before after ps, tag_names u f = before ++ lit "b" :: after ->
     Forall2 (tag_pieces idna u (of_ascii_only f) [] [59]) before ps -> clean (concat ps)) ->
  exists ps j, tags_pieces idna u (of_ascii_only f) b (tag_names u f) ps
    /\ layout (of_line_width f) (of_indentation f) (length (of_header_name f) + 1) ps
       = (pre ++ fst (layout (of_line_width f) (of_indentation f) n (letters b)) ++ post, j).
Proof.
  intros idna u f est pre post n b Hu Hf Hv Hc Hb Hcl.
  destruct Hv as (before & after & ps & qs & i1 & i2 & x & y & HN & Hps & Hqs & L1 & L2 & L3).
  set (w := of_line_width f) in *. set (ind := of_indentation f) in *.
  assert (NoDup (tag_names u f)) as ND.
  { eapply Permutation_NoDup; [symmetry; apply tag_names_perm; exact Hf|]. eapply default_names_nodup; eassumption. }
  rewrite HN in ND. pose proof (NoDup_remove_2 _ _ _ ND) as Hnb.
  assert (no_line_break ind) as Ni.
  { destruct Hf as (_ & W & _). split; intros X; unfold wsps in W; rewrite Forall_forall in W; specialize (W _ X); lia. }
  pose proof (Hcl _ _ _ HN Hps) as Cp.
  assert (n = i1) as ->.
  { eapply column_det; [exact Hc|]. rewrite <- (app_nil_l pre). eapply layout_column; [exact Ni| | |exact L1].
    - apply Forall_app. split; [exact Cp|]. constructor; [|constructor]. split; cbn; intros X; repeat destruct X as [X|X]; try discriminate X; exact X.
    - right. split; [|cbn; lia]. intros [|] z; discriminate. }
  exists (concat ps ++ (mkPiece Start (lit "b=") 1 :: letters b ++ [glued (if is_nil after then [] else [59])]) ++ qs).
  exists y. split.
  - rewrite HN. apply tags_before; [|discriminate|].
    + assert (~ In (lit "b") before) as Hb'. { intros X. apply Hnb. apply in_app_iff. auto. }
      clear - Hps Hb'. induction Hps; constructor.
      * eapply tag_pieces_b; [|eassumption]. intros ->. apply Hb'. left; reflexivity.
      * apply IHHps. intros X. apply Hb'. right. exact X.
    + constructor; [constructor|]. eapply tags_pieces_b; [|eassumption]. intros X. apply Hnb. apply in_app_iff. auto.
  - replace (concat ps ++ (mkPiece Start (lit "b=") 1 :: letters b ++ [glued (if is_nil after then [] else [59])]) ++ qs)
      with ((concat ps ++ [mkPiece Start (lit "b=") 1]) ++ letters b ++ glued (if is_nil after then [] else [59]) :: qs).
    2:{ rewrite <- !app_assoc. cbn [app]. rewrite <- !app_assoc. reflexivity. }
    rewrite layout_app, L1. rewrite layout_app.
    pose proof (letters_same w ind b (repeat 65 est) i1 ltac:(rewrite repeat_length; exact Hb)) as Ls. rewrite L2 in Ls. cbn [snd] in Ls.
    destruct (layout w ind i1 (letters b)) as [tb jb]. cbn [fst snd] in *. subst jb. rewrite L3. reflexivity.
Qed.

(** ** Lines *)

Section Lines.
Variable w : nat.
Variables ind name : str.
Variable P : list Piece.
Hypothesis ind_clean : no_line_break ind.

(** state of the last line; [free]: something may be glued to it *)
Definition last_ok (free : bool) (l : str) : Prop :=
  if free then (length l <= w)%nat \/ exists p, In p P /\ l = ind ++ p_text p
  else line_ok w ind name P l.

Lemma last_free : forall l, last_ok true l -> line_ok w ind name P l.
Proof.
  intros l [H|(p & H & ->)]; [apply lk_fits; exact H|]. rewrite <- (app_nil_r (p_text p)). apply lk_piece; auto.
Qed.

Fixpoint glue_ok (free : bool) (ps : list Piece) : Prop :=
  match ps with
  | [] => True
  | p :: ps' =>
      match p_joint p with
      | Glued => (p_text p = [] /\ glue_ok free ps') \/ (free = true /\ p_text p = [59] /\ glue_ok false ps')
      | _ => glue_ok true ps'
      end
  end.

Lemma layout_lines : forall ps free i t j l, layout w ind i ps = (t, j) -> i = length l -> incl ps P -> clean ps ->
  glue_ok free ps -> last_ok free l -> no_line_break l ->
  exists first more, l ++ t = unlines first more /\ Forall (fun l => no_line_break l /\ line_ok w ind name P l) (first :: more).
Proof using ind_clean.
  induction ps as [|p ps IH]; intros free i t j l L Hi Hin Hp Hg Hl Hn.
  - cbn in L. injection L as <- <-. exists l, []. split; [reflexivity|]. constructor; [|constructor]. split; [exact Hn|].
    destruct free; [apply last_free; exact Hl|exact Hl].
  - cbn [layout] in L. destruct (attach w ind i p) as [t1 i1] eqn:A. destruct (layout w ind i1 ps) as [t2 i2] eqn:L2.
    injection L as <- <-. inv Hp. assert (In p P) as Ip by (apply Hin; left; reflexivity).
    assert (incl ps P) as Hin' by (intros q Hq; apply Hin; right; exact Hq).
    unfold attach in A. cbv zeta in A.
    assert (forall sep, ~ In 13 sep -> ~ In 10 sep -> (length l + length sep + length (p_text p) + p_extra p <= w)%nat ->
      (sep ++ p_text p, (length l + length sep + length (p_text p))%nat) = (t1, i1) -> glue_ok true ps ->
      exists first more, l ++ t1 ++ t2 = unlines first more /\ Forall (fun l => no_line_break l /\ line_ok w ind name P l) (first :: more)) as On.
    { intros sep S1 S2 Hw X G. injection X as <- <-. rewrite app_assoc. eapply IH; [exact L2| | |assumption|exact G| |].
      - rewrite !app_length. lia.
      - exact Hin'.
      - left. rewrite !app_length. lia.
      - destruct Hn, H1. split; rewrite !in_app_iff; tauto. }
    assert (([13; 10] ++ ind ++ p_text p, (length ind + length (p_text p))%nat) = (t1, i1) -> glue_ok true ps -> line_ok w ind name P l ->
      exists first more, l ++ t1 ++ t2 = unlines first more /\ Forall (fun l => no_line_break l /\ line_ok w ind name P l) (first :: more)) as Next.
    { intros X G Hk. injection X as <- <-.
      destruct (IH true _ _ _ (ind ++ p_text p) L2) as (first & more & E & F); auto.
      - rewrite app_length. reflexivity.
      - right. exists p. auto.
      - destruct ind_clean, H1. split; rewrite !in_app_iff; tauto.
      - exists l, (first :: more). split; [|constructor; [auto|exact F]].
        rewrite <- app_assoc in E. unfold unlines in *. cbn [map concat]. rewrite <- !app_assoc. rewrite <- E. cbn [app]. rewrite <- ?app_assoc. reflexivity. }
    assert (line_ok w ind name P l) as Hk by (destruct free; [apply last_free; exact Hl|exact Hl]).
    cbn [glue_ok] in Hg. destruct (p_joint p).
    + destruct (Nat.leb _ _) eqn:Le.
      * apply Nat.leb_le in Le. apply (On [32]); auto; try (intros [X|[]]; discriminate X).
      * apply Next; auto.
    + destruct (Nat.leb _ _) eqn:Le.
      * apply Nat.leb_le in Le. apply (On []); auto.
      * apply Next; auto.
    + cbn [app] in A. injection A as <- <-. destruct Hg as [[Ep G]|(-> & Ep & G)].
      * rewrite Ep in *. cbn [app length] in *. eapply (IH free); try eassumption. lia.
      * rewrite Ep in *. rewrite app_assoc. eapply (IH false); [exact L2| |exact Hin'|assumption|exact G| |].
        -- rewrite app_length. cbn [length]. lia.
        -- destruct Hl as [Hl|(q & Hq & ->)].
           ++ destruct (Nat.eq_dec (length l) w) as [Ew|Ew]; [apply lk_semicolon; exact Ew|].
              apply lk_fits. rewrite app_length. cbn [length]. lia.
           ++ rewrite <- app_assoc. apply lk_piece; auto.
        -- destruct Hn. split; rewrite in_app_iff; intros [X|[X|[]]]; try tauto; discriminate X.
Qed.

End Lines.

(** ** The shape of the pieces *)

Lemma glue_false : forall ps, glue_ok false ps -> glue_ok true ps.
Proof.
  induction ps as [|p ps IH]; cbn [glue_ok]; [auto|]. destruct (p_joint p); auto. intros [[X Y]|(X & _)]; [auto|discriminate].
Qed.

Lemma glue_any : forall free ps, glue_ok false ps -> glue_ok free ps.
Proof. intros [] ps H; [apply glue_false|]; exact H. Qed.

Lemma glue_inner : forall (ps : list Piece) free qs, Forall (fun p => p_joint p <> Glued) ps -> glue_ok (if is_nil ps then free else true) qs -> glue_ok free (ps ++ qs).
Proof.
  induction ps as [|p ps IH]; intros free qs H G; [exact G|]. inv H. cbn [app glue_ok is_nil] in *.
  assert (glue_ok true (ps ++ qs)) as K. { apply IH; [assumption|]. destruct (is_nil ps); exact G. }
  destruct (p_joint p); [exact K|exact K|congruence].
Qed.

Lemma letters_inner : forall s, Forall (fun p => p_joint p <> Glued) (letters s).
Proof. intros s. unfold letters. apply Forall_map. apply Forall_forall. intros c _. discriminate. Qed.

Lemma copied_inner : forall asc fs ps, copied_pieces asc fs ps -> Forall (fun p => p_joint p <> Glued) ps.
Proof.
  intros asc fs ps H. induction H; [constructor|]. constructor; [discriminate|]. constructor; [discriminate|].
  apply Forall_app. split; [apply letters_inner|assumption].
Qed.

Lemma tag_shape : forall idna u asc b stop n ps qs free, tag_pieces idna u asc b stop n ps -> stop = [] \/ stop = [59] ->
  glue_ok false qs -> glue_ok free (ps ++ qs).
Proof.
  intros idna u asc b stop n ps qs free H Hs G.
  assert (glue_ok true (glued stop :: qs)) as GS.
  { cbn [glue_ok]. cbn [p_joint p_text glued]. destruct Hs as [->| ->]; [left|right]; auto using glue_false. }
  destruct H; cbn [app glue_ok]; cbn [p_joint start]; try (apply glue_false; exact G).
  - apply glue_inner; [|destruct (is_nil _); apply glue_false; exact G].
    apply Forall_map. apply Forall_forall. intros x _. discriminate.
  - rewrite <- app_assoc. apply glue_inner; [apply letters_inner|]. destruct (is_nil _); exact GS.
  - rewrite <- app_assoc. apply glue_inner; [apply letters_inner|]. destruct (is_nil _); exact GS.
  - rewrite <- !app_assoc. apply glue_inner; [apply letters_inner|].
    assert (glue_ok true (ps ++ [glued stop] ++ qs)) as K.
    { apply glue_inner; [eapply copied_inner; eassumption|]. destruct (is_nil _); exact GS. }
    destruct (is_nil _); exact K.
Qed.

Lemma tags_shape : forall idna u asc b ns ps free, tags_pieces idna u asc b ns ps -> glue_ok free ps.
Proof.
  intros idna u asc b ns ps free H. revert free. induction H; intros free; [exact I|].
  eapply tag_shape; [eassumption|destruct (is_nil ns); auto|apply IHtags_pieces].
Qed.

(** ** Every output *)

Lemma visible_clean : forall s, Forall (fun c => visible c \/ c = 32 \/ c = 9) s -> no_line_break s.
Proof. intros s H. rewrite Forall_forall in H. split; intros X; specialize (H _ X); unfold visible in H; lia. Qed.

Lemma vtext_chars : forall s, vtext wsps visible s -> Forall (fun c => visible c \/ c = 32 \/ c = 9) s.
Proof.
  intros s H. induction H; [constructor|]. apply Forall_app. split; [|constructor; auto].
  eapply Forall_impl; [|exact H]. intros a; tauto.
Qed.

Lemma pieces_clean : forall E u asc b ns ps, idna_ok (env_idna E) -> sound_usig E u -> Forall visible b ->
  Forall one_line (map snd (u_ext_tags u)) -> tags_pieces (env_idna E) u asc b ns ps -> clean ps.
Proof.
  intros E u asc b ns ps IO S Hb Hone H.
  assert (Forall (piece_ok wsps visible) ps) as K.
  { eapply sound_visible; [eassumption|eassumption|constructor|exact Hb| |exact H].
    intros x Hx. rewrite Forall_forall in Hone. pose proof (Hone x Hx) as Ho. apply in_map_iff in Hx as ((m & y) & Ey & Hi). cbn in Ey. subst y.
    destruct (su_ext _ _ S _ _ Hi) as (_ & [->|V] & _); [constructor|]. apply value_vtext in V.
    apply vtext_one_line; assumption. }
  eapply Forall_impl; [|exact K]. intros p Hp. unfold piece_ok in Hp. destruct (p_text p) as [|c r].
  - split; intros [].
  - destruct Hp as [Hc Hr]. apply visible_clean. constructor; [auto|]. apply vtext_chars. exact Hr.
Qed.

Lemma base64_length : forall bs s, base64 bs s -> length s = ((length bs + 2) / 3 * 4)%nat.
Proof.
  intros bs s H. induction H; [reflexivity|reflexivity|reflexivity|]. cbn [length]. rewrite IHbase64.
  replace (S (S (S (length bs))) + 2)%nat with (1 * 3 + (length bs + 2))%nat by lia. rewrite Nat.div_add_l by lia. lia.
Qed.

Theorem output_width : forall E now r headers body o u pre post sig n b64, idna_ok (env_idna E) -> signature_sizes (env_crypto E) ->
  output_of E now r headers body o u pre post sig n b64 -> Forall one_line (map snd (r_ext_tags E r)) ->
  exists ps first more,
    tags_pieces (env_idna E) u (of_ascii_only (r_format E r)) b64 (tag_names u (r_format E r)) ps
    /\ so_header_name o ++ [58] ++ so_header_value o = unlines first more
    /\ Forall (fun l => no_line_break l
         /\ line_ok (of_line_width (r_format E r)) (of_indentation (r_format E r)) (so_header_name o) ps l) (first :: more).
Proof.
  intros E now r headers body o u pre post sig n b64 IO (Z1 & Z2) H Hone.
  pose proof (oo_sound _ _ _ _ _ _ _ _ _ _ _ _ H) as S.
  pose proof (oo_format _ _ _ _ _ _ _ _ _ _ _ _ H) as F. pose proof (oo_formattable _ _ _ _ _ _ _ _ _ _ _ _ H) as FU.
  pose proof (oo_bytes _ _ _ _ _ _ _ _ _ _ _ _ H) as Hb. pose proof (oo_b64 _ _ _ _ _ _ _ _ _ _ _ _ H) as H64.
  assert (u_ext_tags u = r_ext_tags E r) as X.
  { destruct (oo_u _ _ _ _ _ _ _ _ _ _ _ _ H) as (? & ? & ? & ? & _ & _ & _ & ->). reflexivity. }
  rewrite <- X in Hone.
  assert (length b64 = b64_length E (r_signing_key E r)) as Hlen.
  { rewrite (base64_length _ _ H64). unfold b64_length. pose proof (oo_sign _ _ _ _ _ _ _ _ _ _ _ _ H) as P.
    destruct (r_signing_key E r); cbn in P.
    - rewrite (Z1 _ _ _ _ P). reflexivity.
    - injection P as <-. rewrite Z2. reflexivity. }
  destruct (whole_layout (env_idna E) u (r_format E r) _ pre post n b64 FU F (oo_parts _ _ _ _ _ _ _ _ _ _ _ _ H)
    (oo_column _ _ _ _ _ _ _ _ _ _ _ _ H) Hlen) as (ps & j & Hps & L).
  { intros before after ps HN Hps.
    assert (tags_pieces (env_idna E) u (of_ascii_only (r_format E r)) [] (before ++ [lit "v"]) (concat ps ++ [start (lit "v=1" ++ [])] ++ [])) as Q.
    { apply tags_before; [exact Hps|discriminate|]. constructor; [apply tp_v|constructor]. }
    apply pieces_clean in Q; [|assumption|assumption|constructor|assumption]. apply Forall_app in Q. apply Q. }
  exists ps. rewrite (oo_o _ _ _ _ _ _ _ _ _ _ _ _ H). cbn [so_header_name so_header_value].
  destruct (layout_lines (of_line_width (r_format E r)) (of_indentation (r_format E r)) (of_header_name (r_format E r)) ps) with
    (ps := ps) (free := false) (i := (length (of_header_name (r_format E r)) + 1)%nat) (l := of_header_name (r_format E r) ++ [58])
    (t := pre ++ fst (layout (of_line_width (r_format E r)) (of_indentation (r_format E r)) n (letters b64)) ++ post) (j := j)
    as (first & more & Eu & Fo).
  - apply visible_clean. eapply Forall_impl; [|apply F]. intros c; tauto.
  - exact L.
  - rewrite app_length. reflexivity.
  - intros p Hp. exact Hp.
  - eapply pieces_clean; [eassumption|eassumption| |eassumption|exact Hps]. eapply base64_visible; eassumption.
  - eapply tags_shape. exact Hps.
  - apply lk_name.
  - apply visible_clean. apply Forall_app. split; [|constructor; [unfold visible; lia|constructor]].
    pose proof (header_name_valid _ (proj1 F)) as N. apply name_visible in N as [_ N]. eapply Forall_impl; [|exact N]. auto.
  - exists first, more. split; [exact Hps|]. split; [|exact Fo]. rewrite <- Eu, <- app_assoc. reflexivity.
Qed.

Lemma pieces_visible : forall E u asc b ns ps, idna_ok (env_idna E) -> sound_usig E u -> Forall visible b ->
  Forall (Forall visible) (map snd (u_ext_tags u)) -> tags_pieces (env_idna E) u asc b ns ps ->
  Forall (fun p => Forall visible (p_text p)) ps.
Proof.
  intros E u asc b ns ps IO S Hb Hx H.
  assert (Forall (piece_ok (fun w => w = []) visible) ps) as K.
  { eapply sound_visible; [eassumption|eassumption|reflexivity|exact Hb| |exact H].
    intros x Hi. rewrite Forall_forall in Hx. apply vtext_plain; auto. }
  assert (forall s, vtext (fun w => w = []) visible s -> Forall visible s) as V.
  { intros s Hs. induction Hs; [constructor|]. subst. constructor; assumption. }
  eapply Forall_impl; [|exact K]. intros p Hp. unfold piece_ok in Hp. destruct (p_text p) as [|c r]; [constructor|].
  destruct Hp as [Hc Hr]. constructor; auto.
Qed.

Lemma visible_one_line : forall s, Forall visible s -> one_line s.
Proof. intros s H x y ->. apply Forall_app in H as [_ H]. inv H. unfold visible in *. lia. Qed.

Theorem signed_output_of : forall E headers chunks clock j r o, signed_output E headers chunks clock j r o ->
  exists pre post n b64, output_of E (clock j) r headers (concat chunks) o (unsigned_part (so_signature o)) pre post
    (s_signature_data (so_signature o)) n b64.
Proof.
  intros E headers chunks clock j r o (HC & Hh & order & rs & results & HT & Ho & Hs & Hr & Hj).
  destruct (run_output E order headers rs chunks clock results j r o HC HT Hh Ho Hs Hr Hj) as (u & pre & post & sig & n & b64 & H).
  exists pre, post, n, b64. pose proof (oo_o _ _ _ _ _ _ _ _ _ _ _ _ H) as X.
  assert (unsigned_part (so_signature o) = u) as ->. { rewrite X. destruct u. reflexivity. }
  assert (s_signature_data (so_signature o) = sig) as ->. { rewrite X. reflexivity. }
  exact H.
Qed.
