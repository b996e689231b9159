(** Lemmas on the example programs. *)

From Coq Require Import String List Permutation.
From Verif Require Import Base Utf8 Canon BodyHash Header Domain Signature KeyRecord Crypto TagList Format Sign Verify Pem Report Programs
  SpecText SpecCanon SpecHash SpecHeader SpecTag SpecDomain SpecSig SpecRecord SpecFormat SpecSign SpecOutput SpecVerify SpecEnd SpecMessage SpecPrograms
  Utf8Proofs HeaderProofs HeaderCanonProofs DomainProofs SigProofs SignProofs FormatProofs OutputProofs OutputParse WidthProofs OutputChars VerifyProofs VerifyKeys VerifyRun VerifyFacts
  EndProofs MessageProofs Lib.
Import ListNotations.
Open Scope N_scope.

(** ** Line breaks *)

Lemma replace_lf_cons : forall c s, replace_lf (c :: s) = (if c =? 10 then [13; 10] else [c]) ++ replace_lf s.
Proof. reflexivity. Qed.

Lemma replace_lf_break : forall s, replace_lf (10 :: s) = 13 :: 10 :: replace_lf s.
Proof. reflexivity. Qed.
Lemma replace_lf_char : forall c s, c <> 10 -> replace_lf (c :: s) = c :: replace_lf s.
Proof. intros c s N. rewrite replace_lf_cons. destruct (N.eqb_spec c 10); [contradiction|reflexivity]. Qed.

Lemma breaks_lf : forall s t, breaks s t <-> t = replace_lf s.
Proof.
  intros s t. split.
  - intros H. induction H as [|c s t N H ->|s t H ->]; [reflexivity| |reflexivity]. rewrite replace_lf_cons.
    destruct (c =? 10) eqn:X; [lia|reflexivity].
  - intros ->. induction s as [|c s IH]; [constructor|]. rewrite replace_lf_cons. destruct (c =? 10) eqn:X.
    + apply N.eqb_eq in X. subst c. apply br_break. exact IH.
    + apply br_char; [lia|exact IH].
Qed.

Lemma replace_lf_app : forall a b, replace_lf (a ++ b) = replace_lf a ++ replace_lf b.
Proof. intros. apply flat_map_app. Qed.

Lemma replace_lf_head : forall s t, replace_lf s <> 10 :: t.
Proof.
  intros [|c s] t; [discriminate|]. rewrite replace_lf_cons. destruct (c =? 10) eqn:X; cbn [app]; intros Y; injection Y as Y1 _; lia.
Qed.

Lemma replace_crlf_lf : forall s, replace_crlf (replace_lf s) = s.
Proof.
  induction s as [|c s IH]; [reflexivity|]. rewrite replace_lf_cons. destruct (c =? 10) eqn:X.
  - apply N.eqb_eq in X. subst c. cbn [app replace_crlf]. rewrite IH. reflexivity.
  - cbn [app]. destruct (replace_lf s) as [|d t] eqn:Y; [rewrite <- IH; reflexivity|]. cbn [replace_crlf] in *.
    destruct (d =? 10) eqn:Z; [apply N.eqb_eq in Z; subst d; destruct (replace_lf_head _ _ Y)|]. rewrite andb_false_r.
    f_equal. exact IH.
Qed.

Lemma replace_lf_scalar : forall s, Forall is_scalar s -> Forall is_scalar (replace_lf s).
Proof.
  intros s H. induction H as [|c s C H IH]; [constructor|]. rewrite replace_lf_cons. apply Forall_app. split; [|exact IH].
  destruct (c =? 10); [|constructor; [exact C|constructor]]. constructor; [|constructor; [|constructor]]; unfold is_scalar; lia.
Qed.

(** an empty line *)
Fixpoint has_blank (s : str) : bool :=
  match s with
  | [] => false
  | c :: s' => (c =? 10) && starts_with 10 s' || has_blank s'
  end.

Lemma has_blank_spec : forall s, has_blank s = false <-> forall a b, s <> a ++ [10; 10] ++ b.
Proof.
  induction s as [|c s IH]; cbn [has_blank].
  - split; [|reflexivity]. intros _ [|x a] b; discriminate.
  - rewrite orb_false_iff, IH. split.
    + intros [X Y] [|x a] b Q; [|injection Q as _ Q; apply (Y _ _ Q)]. injection Q as -> ->. discriminate X.
    + intros H. split.
      * destruct s as [|d s]; [apply andb_false_r|]. cbn [starts_with]. destruct (c =? 10) eqn:X; [|reflexivity].
        destruct (d =? 10) eqn:Y; [|reflexivity]. exfalso. apply (H [] s). cbn [app]. f_equal; [lia|f_equal; lia].
      * intros a b ->. apply (H (c :: a) b). reflexivity.
Qed.

Lemma has_blank_app : forall a b, starts_with 10 b = false -> has_blank (a ++ b) = has_blank a || has_blank b.
Proof.
  intros a b H. induction a as [|c a IH]; [reflexivity|]. cbn [app has_blank]. rewrite IH, orb_assoc. f_equal. f_equal. f_equal.
  destruct a as [|d a]; [exact H|reflexivity].
Qed.

Lemma strip_blank : forall s t, strip_prefix [13; 10; 13; 10] s = Some t <-> s = 13 :: 10 :: 13 :: 10 :: t.
Proof.
  intros s t. split.
  - intros H. unfold strip_prefix in H. do 4 (destruct s as [|? s]; [discriminate H|]; match type of H with context [N.eqb ?x ?y] => destruct (N.eqb_spec x y); [subst|discriminate H] end).
    injection H as <-. reflexivity.
  - intros ->. reflexivity.
Qed.

Lemma split_blank : forall s a b, split_once_blank (replace_lf s) = Some (a, b) <->
  exists h b', message_text s h b' /\ breaks h a /\ breaks b' b.
Proof.
  intros s. assert (forall t, split_once_blank t = match strip_prefix [13; 10; 13; 10] t with
    | Some rest => Some ([], rest)
    | None => match t with [] => None | c :: s' => match split_once_blank s' with Some (a, b) => Some (c :: a, b) | None => None end end end) as U by (intros []; reflexivity).
  induction s as [|c s IH]; intros a b.
  - split; [discriminate|]. intros (h & b' & [X _] & _). destruct h; discriminate X.
  - destruct (N.eqb_spec c 10) as [->|N].
    + rewrite replace_lf_break.
      destruct (starts_with 10 s) eqn:D.
      * destruct s as [|d s]; [discriminate D|]. cbn [starts_with] in D. apply N.eqb_eq in D. subst d.
        rewrite replace_lf_break, U.
        assert (strip_prefix [13; 10; 13; 10] (13 :: 10 :: 13 :: 10 :: replace_lf s) = Some (replace_lf s)) as -> by (apply strip_blank; reflexivity).
        split.
        -- intros X. injection X as <- <-. exists [], s. split; [split; [reflexivity|]|split; [constructor|apply breaks_lf; reflexivity]].
           intros x y. destruct x as [|x1 [|x2 x3]]; discriminate.
        -- intros (h & b' & [X Y] & Ba & Bb). destruct h as [|h1 h].
           ++ injection X as <-. apply breaks_lf in Bb. inversion Ba. subst. reflexivity.
           ++ exfalso. injection X as <- X. destruct h as [|h2 h].
              ** apply (Y [] []). reflexivity.
              ** injection X as <- X. apply (Y [] (h ++ [10])). reflexivity.
      * assert (strip_prefix [13; 10; 13; 10] (13 :: 10 :: replace_lf s) = None) as S1.
        { destruct (strip_prefix _ _) eqn:X; [|reflexivity]. apply strip_blank in X. injection X as X. exfalso.
          destruct s as [|d s]; [discriminate X|]. rewrite replace_lf_cons in X. cbn [starts_with] in D. rewrite D in X. cbn [app] in X. injection X as _ X.
          exact (replace_lf_head _ _ X). }
        rewrite U, S1, U. assert (strip_prefix [13; 10; 13; 10] (10 :: replace_lf s) = None) as -> by reflexivity.
        split.
        -- destruct (split_once_blank (replace_lf s)) as [[a1 b1]|] eqn:Z; [|discriminate]. intros X. injection X as <- <-.
           destruct (proj1 (IH _ _) eq_refl) as (h & b' & [X Y] & Ba & Bb). exists (10 :: h), b'. split; [split|split; [apply br_break; exact Ba|exact Bb]].
           ++ rewrite X. reflexivity.
           ++ apply has_blank_spec. apply has_blank_spec in Y. cbn [app has_blank]. rewrite Y, orb_false_r.
              destruct h as [|h1 h]; [subst s; discriminate D|]. subst s. cbn [app starts_with] in *. rewrite D. reflexivity.
        -- intros (h & b' & [X Y] & Ba & Bb). destruct h as [|h1 h]; [injection X as ->; discriminate D|]. injection X as <- X.
           apply breaks_lf in Ba. rewrite replace_lf_break in Ba. subst a.
           assert (split_once_blank (replace_lf s) = Some (replace_lf h, b)) as ->; [|reflexivity].
           apply IH. exists h, b'. split; [split; [exact X|]|split; [apply breaks_lf; reflexivity|exact Bb]].
           intros x y Q. apply (Y (10 :: x) y). cbn [app]. f_equal. exact Q.
    + rewrite replace_lf_char, U by exact N.
      assert (strip_prefix [13; 10; 13; 10] (c :: replace_lf s) = None) as ->.
      { destruct (strip_prefix _ _) eqn:X; [|reflexivity]. apply strip_blank in X. injection X as _ X. destruct (replace_lf_head _ _ X). }
      split.
      * destruct (split_once_blank (replace_lf s)) as [[a1 b1]|] eqn:Z; [|discriminate]. intros X. injection X as <- <-.
        destruct (proj1 (IH _ _) eq_refl) as (h & b' & [X Y] & Ba & Bb). exists (c :: h), b'. split; [split|split; [apply br_char; [exact N|exact Ba]|exact Bb]].
        -- rewrite X. reflexivity.
        -- apply has_blank_spec. apply has_blank_spec in Y. cbn [app has_blank]. rewrite Y. destruct (N.eqb_spec c 10); [contradiction|reflexivity].
      * intros (h & b' & [X Y] & Ba & Bb). destruct h as [|h1 h]; [injection X as X _; contradiction|]. injection X as <- X.
        apply breaks_lf in Ba. rewrite replace_lf_char in Ba by exact N. subst a.
        assert (split_once_blank (replace_lf s) = Some (replace_lf h, b)) as ->; [|reflexivity].
        apply IH. exists h, b'. split; [split; [exact X|]|split; [apply breaks_lf; reflexivity|exact Bb]].
        intros x y Q. apply (Y (c :: x) y). cbn [app]. f_equal. exact Q.
Qed.

(** ** Standard input *)

Lemma as_bytes_nil : forall s, Forall is_scalar s -> as_bytes s = [] -> s = [].
Proof.
  intros s H X. assert (from_utf8 [] = Some s) as Y by (apply from_utf8_spec; auto).
  assert (from_utf8 [] = Some []) as Z by (apply from_utf8_spec; auto). congruence.
Qed.

Lemma read_message_spec : forall stdin headers body,
  (exists b, read_message stdin = Some (headers, b) /\ body = as_bytes b) <-> message_input stdin headers body.
Proof.
  intros stdin headers body. unfold read_message. split.
  - intros (b & R & ->). destruct (from_utf8 stdin) as [text|] eqn:T; [|discriminate R]. destruct (is_nil stdin); [discriminate R|].
    destruct (split_once_blank (replace_lf text)) as [[h' b']|] eqn:S; [|discriminate R].
    destruct (header_fields_from_str h') as [hs|] eqn:H; [|discriminate R]. injection R as <- <-.
    apply from_utf8_spec in T as [T1 T2]. apply split_blank in S as (h & b & M & Bh & Bb).
    exists text, h, b, h', b'. auto 10.
  - intros (text & h & b & h' & b' & -> & T & M & Bh & Bb & H & ->). exists b'. split; [|reflexivity].
    assert (from_utf8 (as_bytes text) = Some text) as -> by (apply from_utf8_spec; auto).
    destruct (as_bytes text) as [|x xs] eqn:X.
    { apply as_bytes_nil in X; [|exact T]. subst text. destruct M as [M _]. destruct h; discriminate M. }
    cbn [is_nil]. assert (split_once_blank (replace_lf text) = Some (h', b')) as -> by (apply split_blank; eauto). rewrite H. reflexivity.
Qed.

Lemma message_input_det : forall stdin headers body headers' body', message_input stdin headers body -> message_input stdin headers' body' ->
  headers = headers' /\ body = body'.
Proof.
  intros stdin headers body headers' body' H K. apply read_message_spec in H as (b & H & ->). apply read_message_spec in K as (b' & K & ->).
  rewrite H in K. injection K as -> ->. auto.
Qed.

(** a field printed on top *)
Lemma has_blank_plain : forall l, plain l -> has_blank l = false.
Proof.
  intros l H. induction H as [|c l C H IH]; [reflexivity|]. cbn [has_blank]. rewrite IH. destruct (c =? 10) eqn:X; [lia|reflexivity].
Qed.

Lemma printed_top : forall o t stdin headers body, field_name (so_header_name o) -> field_body (as_bytes (so_header_value o)) ->
  Forall is_scalar (so_header_value o) -> printed o t -> message_input stdin headers body ->
  message_input (as_bytes t ++ stdin) (signature_field o :: headers) body.
Proof.
  intros o t stdin headers body F1 F2 F3 (v & Bv & ->) (text & h & b & h' & b' & -> & T & [M1 M2] & Bh & Bb & H & ->).
  set (n := so_header_name o) in *. assert (Forall is_scalar n /\ plain n) as [Sn Pn].
  { destruct F1 as [_ F1]. split; (eapply Forall_impl; [|exact F1]); unfold ftext, is_scalar; intros; lia. }
  assert (exists f' m', so_header_value o = unlines f' m' /\ plain f' /\ Forall (fun l => plain l /\ folded l) m') as (f' & m' & Ev & P1 & P2).
  { destruct F2 as (f & m & E & Q1 & Q2). destruct (utf8_split_crlf _ f m E F3) as (f' & m' & E' & <- & <-).
    exists f', m'. split; [exact E'|]. rewrite plain_bytes in Q1. split; [exact Q1|]. rewrite Forall_map in Q2.
    eapply Forall_impl; [|exact Q2]. intros x Hx. cbv beta in Hx. rewrite plain_bytes, folded_bytes in Hx. exact Hx. }
  assert (forall l, plain l -> replace_lf l = l) as Rp.
  { intros l Hl. induction Hl as [|c l C Hl IH]; [reflexivity|]. rewrite replace_lf_cons, IH. destruct (c =? 10) eqn:X; [lia|reflexivity]. }
  assert (v = f' ++ concat (map (fun l => 10 :: l) m')) as ->.
  { apply breaks_lf in Bv. assert (replace_lf (f' ++ concat (map (fun l => 10 :: l) m')) = so_header_value o) as X.
    { rewrite replace_lf_app, (Rp _ P1), Ev. unfold unlines. f_equal. clear - P2 Rp. induction P2 as [|l m [L _] P2 IH]; [reflexivity|].
      cbn [map concat]. rewrite !replace_lf_app, IH, replace_lf_cons, (Rp _ L). reflexivity. }
    rewrite <- (replace_crlf_lf v), <- Bv, <- X. apply replace_crlf_lf. }
  assert (starts_with 10 h = false) as Sh.
  { apply from_str_spec in H as (fields & Ne & F & L & _). destruct fields as [|[[n1 f1] m1] fields]; [congruence|].
    inversion F as [|? ? Fo]; subst. destruct Fo as [N1 _]. unfold fields_lines in L. cbn [flat_map field_text_lines app] in L.
    destruct N1 as [N1 N2]. destruct n1 as [|c n1]; [congruence|]. inversion N2 as [|? ? C _]; subst.
    assert (exists x, h' = c :: x) as (x & ->) by (inversion L; subst; eexists; reflexivity). destruct h as [|d h]; [reflexivity|].
    cbn [starts_with]. destruct (N.eqb_spec d 10) as [->|]; [|reflexivity]. inversion Bh; subst; [congruence|]. unfold ftext in C. lia. }
  exists ((n ++ [58] ++ (f' ++ concat (map (fun l => 10 :: l) m')) ++ [10]) ++ text),
    ((n ++ [58] ++ (f' ++ concat (map (fun l => 10 :: l) m')) ++ [10]) ++ h), b, (n ++ [58] ++ so_header_value o ++ [13; 10] ++ h'), b'.
  split; [symmetry; apply as_bytes_app|]. split.
  { rewrite !Forall_app. split; [|exact T]. split; [exact Sn|]. split; [constructor; [unfold is_scalar; lia|constructor]|]. split; [|constructor; [unfold is_scalar; lia|constructor]].
    rewrite Ev in F3. unfold unlines in F3. apply Forall_app in F3 as [G1 G2]. split; [exact G1|]. clear - G2.
    induction m' as [|l m IH]; [constructor|]. cbn [map concat] in *. apply Forall_app in G2 as [G1 G2]. apply Forall_app. split; [|auto].
    cbn [app] in G1. inversion G1 as [|? ? _ G3]. inversion G3. constructor; [unfold is_scalar; lia|assumption]. }
  split; [|split; [|split; [exact Bb|split; [|reflexivity]]]].
  - split; [rewrite M1, <- !app_assoc; reflexivity|]. apply has_blank_spec. rewrite <- app_assoc.
    apply has_blank_spec in M2.
    assert (starts_with 10 (h ++ [10]) = false \/ h = []) as [S'|S'] by (destruct h; [right; reflexivity|left; exact Sh]).
    2: { exfalso. subst h. inversion Bh. subst. vm_compute in H. discriminate H. }
    rewrite has_blank_app, M2, orb_false_r by exact S'.
    assert (forall m l, plain l -> Forall (fun l => plain l /\ folded l) m -> has_blank ((l ++ concat (map (fun l => 10 :: l) m)) ++ [10]) = false) as B.
    { induction m as [|x m IH]; intros l Hl Hm; cbn [map concat].
      - rewrite app_nil_r. clear - Hl. induction Hl as [|c l C Hl IH]; [reflexivity|]. cbn [app has_blank]. rewrite IH. destruct (c =? 10) eqn:X; [lia|reflexivity].
      - inversion Hm as [|? ? [X1 X2] Hm']; subst. rewrite <- app_assoc. cbn [app].
        replace (l ++ 10 :: (x ++ concat (map (fun l => 10 :: l) m)) ++ [10]) with ((l ++ [10]) ++ (x ++ concat (map (fun l => 10 :: l) m)) ++ [10]) by (rewrite <- app_assoc; reflexivity).
        rewrite has_blank_app.
        + rewrite (IH x X1 Hm'), orb_false_r. clear - Hl. induction Hl as [|c l C Hl IH]; [reflexivity|]. cbn [app has_blank]. rewrite IH. destruct (c =? 10) eqn:X; [lia|reflexivity].
        + destruct X2 as [(w & x' & -> & W) _]. cbn [app starts_with]. destruct (N.eqb_spec w 10); [lia|reflexivity]. }
    replace (n ++ [58] ++ (f' ++ concat (map (fun l => 10 :: l) m')) ++ [10]) with (((n ++ [58] ++ f') ++ concat (map (fun l => 10 :: l) m')) ++ [10]) by (rewrite <- !app_assoc; reflexivity).
    apply B; [|exact P2]. apply Forall_app. split; [exact Pn|]. apply Forall_app. split; [repeat constructor; lia|exact P1].
  - apply breaks_lf. apply breaks_lf in Bh, Bv. rewrite !replace_lf_app, <- Bh, <- replace_lf_app, <- Bv, (Rp _ Pn), <- !app_assoc. reflexivity.
  - apply written_top; assumption.
Qed.

Lemma input_blank : forall stdin headers body, message_input stdin headers body -> exists a b, stdin = a ++ [10; 10] ++ b.
Proof.
  intros stdin headers body (text & h & b & h' & b' & -> & _ & [-> _] & _). exists (as_bytes h), (as_bytes b).
  rewrite !as_bytes_app. reflexivity.
Qed.

Lemma lines_scalar : forall ls s, lines_text ls s -> Forall is_scalar s -> Forall (Forall is_scalar) ls.
Proof.
  intros ls s H. induction H as [|l N|l eol ls s He H IH]; intros S.
  - constructor.
  - constructor; [exact S|constructor].
  - rewrite !Forall_app in S. destruct S as (S1 & _ & S2). constructor; auto.
Qed.

Lemma text_fields : forall s hs, Forall is_scalar s -> header_fields_from_str s = Some hs -> header_fields hs.
Proof.
  intros s hs S H. apply from_str_spec in H as (fields & _ & F & L & ->). apply lines_scalar in L; [|exact S]. unfold fields_lines in L.
  apply Forall_map. rewrite Forall_forall in *. intros [[n f] m] Hin. pose proof (F _ Hin) as (F1 & F2 & F3).
  cbn [field_text_value fst snd]. split; [exact F1|].
  assert (Forall (Forall is_scalar) ((n ++ [58] ++ f) :: m)) as X.
  { apply Forall_forall. intros l Hl. apply L. apply in_flat_map. exists (n, f, m). auto. }
  inversion X as [|? ? X1 X2]; subst. apply Forall_app in X1 as [_ X1]. apply Forall_inv_tail in X1. split.
  - exists (as_bytes f), (map as_bytes m). split; [reflexivity|]. split; [apply plain_bytes; exact F2|].
    apply Forall_map. eapply Forall_impl; [|exact F3]. intros l [P1 P2]. rewrite plain_bytes, folded_bytes. auto.
  - unfold unlines. apply Forall_app. split; [apply as_bytes_bytes; exact X1|]. clear - X2. induction m as [|l m IH]; [constructor|].
    inversion X2; subst. cbn [map concat]. apply Forall_app. split; [|auto]. constructor; [unfold is_byte; lia|]. constructor; [unfold is_byte; lia|].
    apply as_bytes_bytes. assumption.
Qed.

Lemma input_fields : forall stdin headers body, message_input stdin headers body -> header_fields headers.
Proof.
  intros stdin headers body (text & h & b & h' & b' & _ & T & [-> _] & Bh & _ & H & _). eapply text_fields; [|exact H].
  apply breaks_lf in Bh. subst h'. apply replace_lf_scalar. apply Forall_app in T. tauto.
Qed.

Lemma decimal_positive : forall t, t <> [] -> hd 48 t <> 48 -> Forall (fun c => 48 <= c <= 57) t -> 0 < decimal t.
Proof.
  intros t. induction t as [|c t IH] using rev_ind; intros N H F; [congruence|]. rewrite decimal_snoc. apply Forall_app in F as [F1 F2]. inversion F2; subst.
  destruct t as [|d t]; [cbn in H; lia|]. assert (0 < decimal (d :: t)) by (apply IH; [discriminate|exact H|exact F1]). lia.
Qed.

Lemma decimal_inj : forall t1 t2, t1 = [] \/ hd 48 t1 <> 48 -> t2 = [] \/ hd 48 t2 <> 48 ->
  Forall (fun c => 48 <= c <= 57) t1 -> Forall (fun c => 48 <= c <= 57) t2 -> decimal t1 = decimal t2 -> t1 = t2.
Proof.
  intros t1. induction t1 as [|c t1 IH] using rev_ind; intros t2 H1 H2 F1 F2 D.
  - destruct t2 as [|d t2]; [reflexivity|]. destruct H2 as [H2|H2]; [discriminate|].
    pose proof (decimal_positive (d :: t2) ltac:(discriminate) H2 F2) as P. rewrite <- D in P. cbn in P. lia.
  - destruct t2 as [|d t2 _] using rev_ind.
    + destruct H1 as [H1|H1]; [destruct t1; discriminate H1|]. pose proof (decimal_positive (t1 ++ [c]) ltac:(destruct t1; discriminate) H1 F1) as P.
      rewrite D in P. cbn in P. lia.
    + rewrite !decimal_snoc in D. apply Forall_app in F1 as [F1 G1], F2 as [F2 G2]. inversion G1; inversion G2; subst.
      assert (decimal t1 = decimal t2 /\ c = d) as [X ->] by lia. f_equal. apply IH; try assumption.
      * destruct t1 as [|a t1]; [left; reflexivity|right]. destruct H1 as [H1|H1]; [discriminate H1|exact H1].
      * destruct t2 as [|a t2]; [left; reflexivity|right]. destruct H2 as [H2|H2]; [discriminate H2|exact H2].
Qed.

Lemma decimal_text_det : forall t1 t2 n, decimal_text t1 n -> decimal_text t2 n -> t1 = t2.
Proof.
  intros t1 t2 n (N1 & F1 & D1 & H1) (N2 & F2 & D2 & H2).
  destruct H1 as [->|H1], H2 as [->|H2]; [reflexivity| | |].
  - pose proof (decimal_positive _ N2 H2 F2) as P. rewrite D2, <- D1 in P. cbn in P. lia.
  - pose proof (decimal_positive _ N1 H1 F1) as P. rewrite D1, <- D2 in P. cbn in P. lia.
  - apply decimal_inj; auto. congruence.
Qed.

Section WithEnv.
Variable E : Env.
Notation C := (env_crypto E).
Notation idna := (env_idna E).

Lemma request_same : forall d s (key : SigningKey C) a, alg_from_parts (sk_key_type C key) Sha256 = Some a ->
  program_request E d s a key = request_for E d s key.
Proof. intros d s [k|k] a H; cbn in H; injection H as <-; reflexivity. Qed.

Lemma request_for_typed : forall d s (key : SigningKey C), domain_text idna d true -> domain_text idna s false ->
  request_typed E (request_for E d s key).
Proof. intros d s key Hd Hs. split; [exact Hd|]. split; [exact Hs|]. split; [discriminate|]. split; [discriminate|exact I]. Qed.

Lemma request_for_fine : forall d s (key : SigningKey C), first_of (request_checks E (request_for E d s key)) None.
Proof.
  intros d s key. apply first_of_none_iff. unfold request_checks. cbn [request_for r_signing_key r_algorithm r_header_selection r_identity r_valid_duration r_ext_tags r_format r_body_length].
  repeat constructor; cbn [fst]; try (intros (x & X); discriminate X); try (intros (x & y & X & _); discriminate X); try (intros (x & X & _); discriminate X); try discriminate.
  - destruct key; cbn; tauto.
  - intros X. apply X. split; [constructor|]. intros n v [].
  - intros X. apply X. vm_compute. reflexivity.
  - intros X. apply X. split; [|discriminate]. cbn. constructor; [auto|constructor].
Qed.

Lemma can_sign_det : forall P files f d s stdin key headers body key' headers' body',
  can_sign E P files f d s stdin key headers body -> can_sign E P files f d s stdin key' headers' body' ->
  key = key' /\ headers = headers' /\ body = body'.
Proof.
  intros P files f d s stdin key headers body key' headers' body' ((pem & F & S & K) & _ & _ & M & _) ((pem' & F' & S' & K') & _ & _ & M' & _).
  split.
  - assert (as_bytes pem = as_bytes pem') as X by congruence.
    assert (from_utf8 (as_bytes pem) = Some pem) as Y by (apply from_utf8_spec; auto).
    assert (from_utf8 (as_bytes pem') = Some pem') as Z by (apply from_utf8_spec; auto). congruence.
  - eapply message_input_det; eassumption.
Qed.

Lemma dkimsign_runs : forall P files order clock program f d s stdin key headers body, crypto_typed E -> (forall l, Permutation (order l) l) ->
  can_sign E P files f d s stdin key headers body ->
  exists res, dkimsign E P files order clock [program; f; d; s] stdin = Val (print_signed (mkExit 0 [] []) res)
    /\ signing_result E (clock 0%nat) (request_for E d s key) headers body res
    /\ forall o, res = Ok o -> signed_output E headers [body] clock 0 (request_for E d s key) o.
Proof.
  intros P files order clock program f d s stdin key headers body Ct Ho ((pem & F & S & K) & Hd & Hs & M & From).
  pose proof (input_fields _ _ _ M) as Hh. apply read_message_spec in M as (b & M & ->). unfold dkimsign. rewrite F.
  assert (from_utf8 (as_bytes pem) = Some pem) as -> by (apply from_utf8_spec; auto).
  destruct (domain_new_spec idna d) as (rd & -> & Xd). rewrite (proj2 (Xd d) (conj eq_refl Hd)). cbn [bind].
  destruct (selector_new_spec idna s) as (rs & -> & Xs). rewrite (proj2 (Xs s) (conj eq_refl Hs)). cbn [bind].
  rewrite K. destruct (alg_from_parts (sk_key_type C key) Sha256) as [a|] eqn:A; [|destruct key; discriminate A]. rewrite M, (request_same _ _ _ _ A).
  set (r := request_for E d s key) in *.
  assert (Forall (request_typed E) [r]) as T by (constructor; [apply request_for_typed; assumption|constructor]).
  destruct (signing_spec E order headers [r] [as_bytes b] clock Ct T Hh Ho) as (e & He & X).
  assert (first_of (signing_checks E headers [r]) None) as Ok1.
  { apply checks_none. split; [exact From|]. split; [cbn; lia|]. constructor; [apply request_for_fine|constructor]. }
  rewrite (first_of_det _ _ _ _ He Ok1) in X. destruct X as (results & X & L & R).
  destruct results as [|res [|? ?]]; try discriminate L. exists res. specialize (R 0%nat r res eq_refl eq_refl).
  cbn [concat] in R. rewrite app_nil_r in R. split; [|split; [exact R|]].
  - unfold sign_message in X. destruct (prepare_signing E order headers [r]) as [[sg|]|]; cbn [bind] in *; try discriminate X.
    cbn [signer_chunks bind] in X. destruct (signer_chunk E sg (as_bytes b)) as [[st sg']|]; cbn [bind] in *; [|discriminate X].
    destruct (sign E clock sg') as [l|]; cbn [bind] in *; [|discriminate X]. injection X as ->. reflexivity.
  - intros o ->. split; [exact Ct|]. split; [exact Hh|]. exists order, [r], [Ok o]. auto.
Qed.

Lemma dkimsign_stops : forall P files order clock program f d s stdin x,
  dkimsign E P files order clock [program; f; d; s] stdin = Val x ->
  exists key headers body, can_sign E P files f d s stdin key headers body.
Proof.
  intros P files order clock program f d s stdin x H. unfold dkimsign in H.
  destruct (files f) as [bytes|] eqn:F; [|discriminate H]. destruct (from_utf8 bytes) as [pem|] eqn:U; [|discriminate H]. apply from_utf8_spec in U as [U1 <-].
  destruct (domain_new_spec idna d) as (rd & Ed & Xd). rewrite Ed in H. cbn [bind] in H. destruct rd as [d'|]; [|discriminate H].
  destruct (proj1 (Xd d') eq_refl) as [-> Hd].
  destruct (selector_new_spec idna s) as (rs & Es & Xs). rewrite Es in H. cbn [bind] in H. destruct rs as [s'|]; [|discriminate H].
  destruct (proj1 (Xs s') eq_refl) as [-> Hs].
  destruct (from_pkcs8_pem P pem) as [key|] eqn:K; [|discriminate H]. destruct (alg_from_parts (sk_key_type C key) Sha256) as [a|] eqn:A; [|discriminate H].
  destruct (read_message stdin) as [[headers b]|] eqn:M; [|discriminate H]. rewrite (request_same _ _ _ _ A) in H.
  exists key, headers, (as_bytes b). split; [eauto|]. split; [exact Hd|]. split; [exact Hs|]. split; [apply read_message_spec; eauto|].
  set (r := request_for E d s key) in *.
  assert (Forall (request_typed E) [r]) as T by (constructor; [apply request_for_typed; assumption|constructor]).
  destruct (prepare_spec E order headers [r] T) as (e & He & Ep). rewrite Ep in H. destruct e as [e|]; [discriminate H|].
  apply checks_none in He. tauto.
Qed.

Lemma program_failure : forall now d s (key : SigningKey C) headers body e,
  signing_result E now (request_for E d s key) headers body (Err e) -> e = SigningFailure.
Proof.
  intros now d s key headers body e H. inversion H; subst; try reflexivity; try discriminate.
  match goal with X : signed_body _ _ _ _ _ |- _ => inversion X; discriminate end.
Qed.

Lemma value_breaks : forall v, field_body (as_bytes v) -> Forall is_scalar v -> breaks (replace_crlf v) v.
Proof.
  intros v (f & m & Ev & P1 & P2) S. destruct (utf8_split_crlf v f m Ev S) as (f' & m' & -> & <- & <-).
  rewrite plain_bytes in P1. rewrite Forall_map in P2.
  assert (exists t, breaks t (unlines f' m')) as (t & B).
  { assert (forall l, plain l -> breaks l l) as Pl.
    { intros l Hl. induction Hl as [|c l C1 Hl IH]; constructor; [lia|exact IH]. }
    assert (forall a a' b b', breaks a a' -> breaks b b' -> breaks (a ++ b) (a' ++ b')) as Ap.
    { intros a a' b b' A B. apply breaks_lf in A, B. subst. apply breaks_lf. symmetry. apply replace_lf_app. }
    exists (f' ++ concat (map (fun l => 10 :: l) m')). unfold unlines. apply Ap; [apply Pl; exact P1|].
    clear - P2 Pl Ap. induction m' as [|l m IH]; [constructor|]. inversion P2 as [|? ? [X _] P3]; subst. cbn [map concat].
    apply Ap; [|apply IH; exact P3]. apply br_break. apply Pl. apply plain_bytes. exact X. }
  pose proof B as B'. apply breaks_lf in B'. rewrite B' at 1. rewrite replace_crlf_lf. exact B.
Qed.

Lemma program_scalar : forall d s key headers chunks clock o, Forall is_scalar d -> Forall is_scalar s ->
  signed_output E headers chunks clock 0 (request_for E d s key) o -> signed_somehow E o.
Proof.
  intros d s key headers chunks clock o Hd Hs H. exists headers, chunks, clock, 0%nat, (request_for E d s key).
  split; [exact H|]. split; [exact Hd|]. split; [exact Hs|]. split; [discriminate|constructor].
Qed.


Theorem dkimsign_spec : forall P files order clock program f d s stdin, crypto_typed E -> idna_ok idna -> (forall l, Permutation (order l) l) ->
  Forall is_scalar d -> Forall is_scalar s ->
  (forall key headers body, can_sign E P files f d s stdin key headers body ->
     (exists o out, dkimsign E P files order clock [program; f; d; s] stdin = Val (mkExit 0 out [])
        /\ signed_output E headers [body] clock 0 (request_for E d s key) o /\ printed o out)
     \/ (dkimsign E P files order clock [program; f; d; s] stdin = Val (mkExit 0 [] (lit "failed to sign: signing failed" ++ [10]))
         /\ signing_result E (clock 0%nat) (request_for E d s key) headers body (Err SigningFailure)))
  /\ ((forall key headers body, ~ can_sign E P files f d s stdin key headers body) ->
     dkimsign E P files order clock [program; f; d; s] stdin = Panic).
Proof.
  intros P files order clock program f d s stdin Ct IO Ho Sd Ss. split.
  - intros key headers body H. destruct (dkimsign_runs P files order clock program f d s stdin key headers body Ct Ho H) as (res & X & R & O).
    destruct res as [o|e].
    + left. specialize (O o eq_refl). exists o. eexists. split; [exact X|]. split; [exact O|].
      destruct (readable_field E o IO (program_scalar _ _ _ _ _ _ _ Sd Ss O)) as (_ & F2 & F3).
      exists (replace_crlf (so_header_value o)). split; [apply value_breaks; assumption|reflexivity].
    + right. pose proof (program_failure _ _ _ _ _ _ _ R) as ->. split; [exact X|exact R].
  - intros H. destruct (dkimsign E P files order clock [program; f; d; s] stdin) as [x|] eqn:X; [|reflexivity].
    destruct (dkimsign_stops _ _ _ _ _ _ _ _ _ _ X) as (key & headers & body & K). destruct (H _ _ _ K).
Qed.

(** ** Verification *)

Lemma print_listing : forall show rs i t, print_results show i rs = t <-> listing show (N.of_nat (i + 1)) rs t.
Proof.
  intros show rs. induction rs as [|r rs IH]; intros i t; cbn [print_results].
  - split; [intros <-; constructor|]. intros H. inversion H. reflexivity.
  - split.
    + intros <-. apply li_cons; [apply dec_str_spec|]. replace (N.of_nat (i + 1) + 1) with (N.of_nat (S i + 1)) by lia. apply IH. reflexivity.
    + intros H. inversion H as [|? ? ? d t' D L]; subst. replace (N.of_nat (i + 1) + 1) with (N.of_nat (S i + 1)) in L by lia. apply IH in L. subst t'.
      rewrite (decimal_text_det _ _ _ (dec_str_spec _) D). reflexivity.
Qed.

Lemma dkimverify_run : forall show w program stdin headers body, message_input stdin headers body ->
  dkimverify E show w [program] stdin =
  match verify_message E w headers program_config [body] with
  | Val (Some rs) => Val (mkExit 0 (print_results show 0 rs) [])
  | _ => Panic
  end.
Proof.
  intros show w program stdin headers body M. apply read_message_spec in M as (b & M & ->). unfold dkimverify, verify_message. rewrite M.
  destruct (verify_header E w headers program_config) as [[[[v q] n]|]|]; cbn [bind]; try reflexivity. cbn [verifier_chunks].
  destruct (verifier_chunk v (as_bytes b)) as [[st v']|]; cbn [bind]; [|reflexivity].
  destruct (verifier_finish E v') as [rs|]; reflexivity.
Qed.

Lemma no_blank : forall P files order clock show w program f d s stdin, (forall a b, stdin <> a ++ [10; 10] ++ b) ->
  dkimsign E P files order clock [program; f; d; s] stdin = Panic /\ dkimverify E show w [program] stdin = Panic.
Proof.
  intros P files order clock show w program f d s stdin H.
  assert (forall headers body, ~ message_input stdin headers body) as N.
  { intros headers body M. apply input_blank in M as (a & b & M). exact (H a b M). }
  split.
  - destruct (dkimsign E P files order clock [program; f; d; s] stdin) as [x|] eqn:X; [|reflexivity].
    destruct (dkimsign_stops _ _ _ _ _ _ _ _ _ _ X) as (key & headers & body & _ & _ & _ & M & _). destruct (N _ _ M).
  - unfold dkimverify. destruct (read_message stdin) as [[headers b]|] eqn:M; [|reflexivity]. destruct (N headers (as_bytes b)).
    apply read_message_spec. eauto.
Qed.

Theorem dkimverify_spec : forall show w program stdin, world_ok w ->
  (forall headers body, message_input stdin headers body ->
     forall x, dkimverify E show w [program] stdin = Val x <->
       exists rs t, verify_message E w headers program_config [body] = Val (Some rs) /\ listing show 1 rs t /\ x = mkExit 0 t [])
  /\ (forall headers body, message_input stdin headers body ->
       (dkimverify E show w [program] stdin = Panic <-> examined program_config headers = []))
  /\ ((forall headers body, ~ message_input stdin headers body) -> dkimverify E show w [program] stdin = Panic).
Proof.
  intros show w program stdin W. split; [|split].
  - intros headers body M x. rewrite (dkimverify_run _ _ _ _ _ _ M). split.
    + destruct (verify_message E w headers program_config [body]) as [[rs|]|]; try discriminate. intros [= <-].
      exists rs, (print_results show 0 rs). split; [reflexivity|]. split; [apply (print_listing show rs 0); reflexivity|reflexivity].
    + intros (rs & t & -> & L & ->). apply (print_listing show rs 0) in L. subst t. reflexivity.
  - intros headers body M. rewrite (dkimverify_run _ _ _ _ _ _ M).
    destruct (verify_message_cases E w headers program_config [body] W (input_fields _ _ _ M)) as [[X ->]|(X & rs & -> & _)]; [tauto|].
    split; [discriminate|]. intros Z. contradiction.
  - intros H. unfold dkimverify. destruct (read_message stdin) as [[headers b]|] eqn:M; [|reflexivity]. exfalso. apply (H headers (as_bytes b)).
    apply read_message_spec. eauto.
Qed.

(** ** One after the other *)

Lemma program_readable : forall d s key headers chunks clock o, Forall is_scalar d -> Forall is_scalar s -> clock 0%nat < 2^64 ->
  signed_output E headers chunks clock 0 (request_for E d s key) o ->
  readable_output E headers chunks clock 0 (request_for E d s key) o.
Proof.
  intros d s key headers chunks clock o Hd Hs Hc H. split; [exact H|]. split; [|split; [exact Hc|split; [|constructor]]].
  - constructor; cbn [request_for r_domain r_selector r_identity r_algorithm r_ext_tags r_valid_duration].
    + split; [exact Hd|]. split; [exact Hs|]. discriminate.
    + discriminate.
    + destruct key; discriminate.
    + intros [].
    + intros t X. injection X as <-. split; [exact Hc|]. intros Z. congruence.
  - destruct (signed_output_of _ _ _ _ _ _ _ H) as (pre & post & n & b64 & O).
    destruct (oo_u _ _ _ _ _ _ _ _ _ _ _ _ O) as (hashed & l & names & copied & _ & _ & Cp & X).
    unfold copied_headers in Cp. cbn [request_for r_copy_headers] in Cp. subst copied.
    apply (f_equal u_copied_headers) in X. unfold unsigned_part in X. cbn in X. unfold copied_names_safe. rewrite X. constructor.
Qed.

Lemma program_good : forall d s key headers extra chunks clock o now, signed_output E headers chunks clock 0 (request_for E d s key) o ->
  (forall f, In f extra -> ~ same_name (fst f) (lit "From")) ->
  signature_good E (extra ++ headers) program_config now (so_signature o).
Proof.
  intros d s key headers extra chunks clock o now H NF.
  assert (s_body_length (so_signature o) = None) as L.
  { destruct (request_parts E _ _ _ _ _ _ H) as (hashed & names & B & _). remember (s_body_length (so_signature o)) as l. inversion B; try reflexivity; discriminate. }
  destruct (default_good E headers extra chunks clock 0 (request_for E d s key) o (clock 0%nat) H eq_refl NF) as (G1 & G2 & G3 & _ & _ & G6).
  - intros l. rewrite L. discriminate.
  - destruct key; discriminate.
  - split; [|discriminate]. intros t X. injection X as <-. lia.
  - split; [exact G1|]. split; [exact G2|]. split; [exact G3|]. split; [discriminate|]. split; [discriminate|exact G6].
Qed.

Lemma program_examined : forall headers, examined program_config headers = examined default_config headers.
Proof. reflexivity. Qed.

Section Times.
Hypothesis Ct : crypto_typed E.
Hypothesis IO : idna_ok idna.
Variable zone : str -> IoResult (list (IoResult (list byte))).

Definition signed_by (headers : list HeaderField) (body : list byte) (o : SigningOutput) : Prop :=
  exists d s key clock, readable_output E headers [body] clock 0 (request_for E d s key) o
    /\ key_published E (request_for E d s key) program_config (fun p => zone (key_name p)).

Lemma one_time : forall P files order clock program f d s m out err key headers body,
  (forall l, Permutation (order l) l) -> clock 0%nat < 2^64 -> Forall is_scalar d -> Forall is_scalar s ->
  dkimsign E P files order clock [program; f; d; s] m = Val (mkExit 0 out err) -> out <> [] ->
  can_sign E P files f d s m key headers body ->
  key_published E (request_for E d s key) program_config (fun p => zone (key_name p)) ->
  exists o, signed_by headers body o /\ message_input (as_bytes out ++ m) (signature_field o :: headers) body.
Proof.
  intros P files order clock program f d s m out err key headers body Ho Hc Sd Ss X Ne K Pb.
  destruct (proj1 (dkimsign_spec P files order clock program f d s m Ct IO Ho Sd Ss) _ _ _ K) as [(o & out' & X' & O & Pr)|[X' _]].
  2: { rewrite X' in X. injection X as <- _. congruence. }
  rewrite X' in X. injection X as <- _. exists o. split.
  - exists d, s, key, clock. split; [|exact Pb]. apply program_readable; assumption.
  - destruct (readable_field E o IO (program_scalar _ _ _ _ _ _ _ Sd Ss O)) as (F1 & F2 & F3). apply printed_top; try assumption. apply K.
Qed.

Lemma signed_invariant : forall m n m', signed_times E zone m (S n) m' ->
  exists headers body outs, message_input m' (map signature_field outs ++ headers) body /\ length outs = S n
    /\ forall k o, nth_error outs k = Some o -> signed_by (map signature_field (skipn (S k) outs) ++ headers) body o.
Proof.
  intros m n. induction n as [|n IH]; intros m' H; inversion H as [|? m1 P files order clock program f d s out err key hs b H1 Ho Hc Sd Ss X Ne K Pb]; subst.
  - inversion H1; subst. destruct (one_time _ _ _ _ _ _ _ _ _ _ _ _ _ _ Ho Hc Sd Ss X Ne K Pb) as (o & O & M).
    exists hs, b, [o]. split; [exact M|]. split; [reflexivity|]. intros [|k] o' E1; [|destruct k; discriminate E1]. injection E1 as <-. exact O.
  - destruct (IH _ H1) as (headers & body & outs & M1 & L & R). destruct (one_time _ _ _ _ _ _ _ _ _ _ _ _ _ _ Ho Hc Sd Ss X Ne K Pb) as (o & O & M).
    destruct (message_input_det _ _ _ _ _ (proj1 (proj2 (proj2 (proj2 K)))) M1) as [-> ->].
    exists headers, body, (o :: outs). split; [exact M|]. split; [cbn; congruence|]. intros [|k] o' E1; cbn [nth_error skipn] in *.
    + injection E1 as <-. exact O.
    + exact (R k o' E1).
Qed.

Lemma stack_verifies : forall w headers body outs, crypto_nonempty C -> world_ok w -> steady (w_resolver w) zone ->
  outs <> [] -> (length outs <= 10)%nat -> header_fields (map signature_field outs ++ headers) ->
  (forall k o, nth_error outs k = Some o -> signed_by (map signature_field (skipn (S k) outs) ++ headers) body o) ->
  exists rs, verify_message E w (map signature_field outs ++ headers) program_config [body] = Val (Some rs)
    /\ (length outs <= length rs)%nat
    /\ forall k r, (k < length outs)%nat -> nth_error rs k = Some r -> vr_status r = Success.
Proof.
  intros w headers body outs NE W S Ne L Hf F.
  set (top := map signature_field outs) in *.
  assert (Forall (fun f : HeaderField => same_name (fst f) (lit "DKIM-Signature")) top) as Fn.
  { unfold top. apply Forall_map. apply Forall_forall. intros o Ho. apply In_nth_error in Ho as (k & K). destruct (F k o K) as (d & s & key & clock & O & _).
    apply (field_named E _ _ _ _ _ _ IO O). }
  assert (length top = length outs) as Lt by apply map_length.
  destruct (verify_message_cases E w _ program_config [body] W Hf) as [[X _]|(_ & rs & V & _)].
  { exfalso. destruct outs as [|o outs]; [congruence|]. pose proof (examined_top top headers 0 (signature_field o) Fn ltac:(lia) eq_refl) as Y.
    rewrite program_examined in X. rewrite X in Y. discriminate. }
  pose proof (steady_evaluation _ _ _ _ _ _ _ W Hf S V) as Ev.
  pose proof (evaluation_verdicts _ _ _ _ _ _ _ Ev) as F2.
  assert (length (examined program_config (top ++ headers)) = length rs) as Len by (clear - F2; induction F2; cbn; congruence).
  exists rs. split; [exact V|]. split.
  { rewrite <- Len, program_examined. destruct (Nat.le_gt_cases (length outs) (length (examined default_config (top ++ headers)))) as [|G]; [assumption|]. exfalso.
    destruct (nth_error top (length (examined default_config (top ++ headers)))) as [f|] eqn:K; [|apply nth_error_None in K; lia].
    pose proof (examined_top top headers _ f Fn ltac:(lia) K) as Y.
    assert (nth_error (examined default_config (top ++ headers)) (length (examined default_config (top ++ headers))) = None) by (apply nth_error_None; lia). congruence. }
  intros k res Hk Y. destruct (nth_error outs k) as [o|] eqn:K; [|apply nth_error_None in K; lia].
  assert (nth_error top k = Some (signature_field o)) as K' by (unfold top; rewrite nth_error_map, K; reflexivity).
  pose proof (examined_top top headers k _ Fn ltac:(lia) K') as X.
  destruct (F k o K) as (d & s & key & clock & O & Pb). apply nth_error_split in K as (above & below & T & A).
  assert (skipn (Datatypes.S k) outs = below) as Sk.
  { rewrite T, <- A. change (o :: below) with ([o] ++ below). rewrite app_assoc, skipn_app.
    replace (length (above ++ [o])) with (Datatypes.S (length above)) by (rewrite app_length; cbn; lia). rewrite Nat.sub_diag.
    rewrite skipn_all2 by (rewrite app_length; cbn; lia). reflexivity. }
  rewrite Sk in O. set (rest := map signature_field below ++ headers) in *.
  assert (top ++ headers = (map signature_field above ++ [signature_field o]) ++ rest) as Et.
  { unfold top, rest. rewrite T, map_app. cbn [map]. rewrite <- !app_assoc. reflexivity. }
  assert (length (map signature_field above) = k) as Ak by (rewrite map_length; exact A).
  destruct (request_parts E _ _ _ _ _ _ (proj1 O)) as (hashed & names & _ & Nm & Qn & _).
  assert (Forall (fun f : HeaderField => same_name (fst f) (lit "DKIM-Signature")) (map signature_field above ++ [signature_field o])) as Fa.
  { apply Forall_forall. intros f Hi. rewrite Forall_forall in Fn. apply Fn. unfold top. rewrite T, map_app. cbn [map]. apply in_app_or in Hi. apply in_or_app.
    destruct Hi as [Hi|[<-|[]]]; [left; exact Hi|right; left; reflexivity]. }
  destruct (end_to_end E w program_config rest (map signature_field above) [] [body] [body] clock 0 (request_for E d s key) o (fun p => zone (key_name p)) rs res IO NE O) as (R1 & _).
  - rewrite Qn. exact (auto_not_oversigned_all E _ _ _ _ Nm eq_refl Fa).
  - reflexivity.
  - apply (program_good d s key rest _ [body] clock); [apply O|]. intros f Hi. apply not_from. rewrite Forall_forall in Fa. apply Fa. exact Hi.
  - intros Z. discriminate Z.
  - exact Pb.
  - rewrite Et in Ev. exact Ev.
  - exists k. rewrite Ak, <- Et. split; [exact X|exact Y].
  - exact R1.
Qed.

Theorem programs_together : forall show w program m n m', crypto_nonempty C -> world_ok w -> steady (w_resolver w) zone ->
  signed_times E zone m n m' -> (0 < n <= 10)%nat ->
  exists rs rest t, dkimverify E show w [program] m' = Val (mkExit 0 t []) /\ listing show 1 (rs ++ rest) t
    /\ length rs = n /\ Forall (fun r => vr_status r = Success) rs.
Proof.
  intros show w program m n m' NE W S H N. destruct n as [|n]; [lia|].
  destruct (signed_invariant _ _ _ H) as (headers & body & outs & M & L & R).
  destruct (stack_verifies w headers body outs NE W S) as (rs & V & Lr & Sr); [destruct outs; [discriminate L|discriminate]|lia|exact (input_fields _ _ _ M)|exact R|].
  exists (firstn (length outs) rs), (skipn (length outs) rs), (print_results show 0 rs). rewrite firstn_skipn, (dkimverify_run _ _ _ _ _ _ M), V.
  split; [reflexivity|]. split; [apply (print_listing show rs 0); reflexivity|]. split; [rewrite firstn_length; lia|].
  apply Forall_forall. intros r Hr. apply In_nth_error in Hr as (k & K).
  assert (k < length (firstn (length outs) rs))%nat as Kl by (apply nth_error_Some; congruence). rewrite firstn_length in Kl.
  apply (Sr k r); [lia|]. rewrite <- (firstn_skipn (length outs) rs), nth_error_app1; [exact K|rewrite firstn_length; lia].
Qed.

End Times.

End WithEnv.
