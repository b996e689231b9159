(** Proofs: the signer's output parses to the signature reported. *)

From Coq Require Import String List.
From Verif Require Import Base Utf8 Canon BodyHash Header Domain Signature Crypto TagList Format Sign
  SpecText SpecCanon SpecHash SpecHeader SpecTag SpecDomain SpecSig SpecFormat SpecSign SpecOutput
  Lib Utf8Proofs Base64Proofs HeaderProofs DomainProofs QPProofs QPDecode TagListProofs HeaderCanonProofs
  SigProofs FormatProofs SignProofs OutputProofs.
Import ListNotations.
Open Scope N_scope.

(** ** Pieces to text *)

Inductive spaced : str -> str -> Prop :=
| sp_nil : spaced [] []
| sp_cons : forall f c s t, ofws f -> spaced s t -> spaced (c :: s) (f ++ c :: t).

Inductive packed : str -> str -> Prop :=
| pk_nil : packed [] []
| pk_cons : forall c s t, spaced s t -> packed (c :: s) (c :: t).

Inductive names_text : list str -> str -> Prop :=
| nt_one : forall f n, ofws f -> names_text [n] (f ++ n)
| nt_cons : forall f n ns t, ofws f -> names_text ns t -> names_text (n :: ns) (f ++ n ++ [58] ++ t).

Inductive copied_text (asc : bool) : list (str * list byte) -> str -> Prop :=
| ct_nil : copied_text asc [] []
| ct_cons : forall n v q fs f1 f2 t t', ofws f1 -> ofws f2 -> qp_encoding (Some 124) asc v q -> spaced q t ->
    copied_text asc fs t' -> copied_text asc ((n, v) :: fs) (f1 ++ [124] ++ f2 ++ n ++ [58] ++ t ++ t').

Section Tags.
Variable idna : Idna.
Variable u : USig.
Variable asc : bool.
Variable b : str.

Inductive tag_means : str -> str -> Prop :=
| tm_v : tag_means (lit "v") (lit "1")
| tm_a : tag_means (lit "a") (alg_text (u_algorithm u))
| tm_c : tag_means (lit "c") (canon_text (u_canonicalization u))
| tm_d : forall d, written_form idna asc (u_domain u) d -> tag_means (lit "d") d
| tm_s : forall d, written_form idna asc (u_selector u) d -> tag_means (lit "s") d
| tm_i : forall i d l, u_identity u = Some i -> written_form idna asc (id_domain i) d ->
    qp_encoding None asc (as_bytes (unwrap_or (id_local_part i) [])) l -> tag_means (lit "i") (l ++ [64] ++ d)
| tm_l : forall n t, u_body_length u = Some n -> decimal_text t n -> tag_means (lit "l") t
| tm_t : forall n t, u_timestamp u = Some n -> decimal_text t n -> tag_means (lit "t") t
| tm_x : forall n t, u_expiration u = Some n -> decimal_text t n -> tag_means (lit "x") t
| tm_h : forall t rest, names_text (u_signed_headers u) t -> t = hd [] (u_signed_headers u) ++ rest -> tag_means (lit "h") t
| tm_bh : forall s t, base64 (u_body_hash u) s -> packed s t -> tag_means (lit "bh") t
| tm_b : forall t, packed b t -> tag_means (lit "b") t
| tm_z : forall n v q t fs t', u_copied_headers u = (n, v) :: fs -> qp_encoding (Some 124) asc v q -> spaced q t ->
    copied_text asc fs t' -> tag_means (lit "z") (n ++ [58] ++ t ++ t')
| tm_ext : forall n v, In (n, v) (u_ext_tags u) -> tag_means n v.

Definition tag_text (n val stop t : str) : Prop :=
  exists f1 f3, ofws f1 /\ ofws f3 /\ t = f1 ++ n ++ [61] ++ f3 ++ val ++ stop.

Variable ind : str.
Hypothesis ind_ws : wsps ind.
Hypothesis ind_ne : ind <> [].

Lemma sep_ofws : forall j s, sep_ok ind j s -> ofws s.
Proof.
  intros j s H. assert (ofws [32]) as A. { right. exists [32]. split; [constructor; auto|]. split; [discriminate|]. left; reflexivity. }
  assert (ofws ([13; 10] ++ ind)) as B. { right. exists ind. split; [exact ind_ws|]. split; [exact ind_ne|]. right. exists []. split; [constructor|reflexivity]. }
  destruct j; cbn in H; [destruct H as [->| ->]|destruct H as [->| ->]|subst]; auto; left; reflexivity.
Qed.

Lemma laid_first : forall p ps t, laid ind (p :: ps) t -> exists sep t', sep_ok ind (p_joint p) sep
  /\ t = sep ++ p_text p ++ t' /\ laid ind ps t'.
Proof. intros p ps t H. inv H. eauto. Qed.

Lemma laid_one : forall p t, laid ind [p] t -> exists sep, ofws sep /\ t = sep ++ p_text p.
Proof. intros p t H. inv H. inv H4. exists sep. split; [eapply sep_ofws; eassumption|]. rewrite app_nil_r. reflexivity. Qed.

Lemma laid_glued : forall x t, laid ind [glued x] t -> t = x.
Proof. intros x t H. inv H. inv H4. cbn in H2. subst sep. cbn. rewrite app_nil_r. reflexivity. Qed.

Lemma laid_letters : forall s t, laid ind (letters s) t -> spaced s t.
Proof.
  induction s as [|c s IH]; intros t H; unfold letters in H; cbn [map] in H; inv H; [constructor|].
  cbn [p_text inner app]. constructor; [eapply sep_ofws; eassumption|]. apply IH. assumption.
Qed.

Lemma spaced_front : forall s t, spaced s t -> exists f t', t = f ++ t' /\ ofws f /\ packed s t'.
Proof.
  intros s t H. destruct H.
  - exists [], []. repeat split; [left; reflexivity|constructor].
  - exists f, (c :: t). repeat split; [assumption|]. constructor. assumption.
Qed.

Lemma names_front : forall ns t, names_text ns t -> exists f t' rest, t = f ++ t' /\ ofws f /\ names_text ns t' /\ t' = hd [] ns ++ rest.
Proof.
  intros ns t H. assert (ofws []) as O by (left; reflexivity). destruct H.
  - exists f, n, []. rewrite app_nil_r. repeat split; [assumption|]. apply (nt_one [] n O).
  - exists f, (n ++ [58] ++ t), ([58] ++ t). repeat split; [assumption|]. apply (nt_cons [] n ns t O). assumption.
Qed.

Lemma names_laid : forall names stop ts t, names <> [] -> with_colons stop names = ts -> laid ind (map inner ts) t ->
  exists t', t = t' ++ stop /\ names_text names t'.
Proof.
  induction names as [|n ns IH]; intros stop ts t Hn <- H; [congruence|]. destruct ns as [|m ns].
  - cbn [with_colons map] in H. apply laid_one in H as (sep & S & ->). cbn [p_text inner].
    exists (sep ++ n). rewrite <- app_assoc. split; [reflexivity|]. constructor. exact S.
  - change (with_colons stop (n :: m :: ns)) with ((n ++ [58]) :: with_colons stop (m :: ns)) in H. cbn [map] in H. inv H.
    destruct (IH stop _ t0 ltac:(discriminate) eq_refl H4) as (t' & -> & T). cbn [p_text inner].
    exists (sep ++ n ++ [58] ++ t'). rewrite <- !app_assoc. split; [reflexivity|]. constructor; [eapply sep_ofws; eassumption|exact T].
Qed.

Lemma copied_laid : forall fs ps t, copied_pieces asc fs ps -> laid ind ps t -> copied_text asc fs t.
Proof.
  intros fs ps t H. revert t. induction H; intros t L.
  - inv L. constructor.
  - inv L. inv H5. apply laid_split in H7 as (a & c & -> & A & C). cbn [p_text inner]. rewrite <- !app_assoc.
    apply (ct_cons asc n v q fs sep sep0 a c); try (eapply sep_ofws; eassumption); auto. apply laid_letters. exact A.
Qed.

Lemma tag_laid : forall stop n ps t, tag_pieces idna u asc b stop n ps -> laid ind ps t -> u_signed_headers u <> [] ->
  exists val, tag_text n val stop t /\ tag_means n val.
Proof.
  intros stop n ps t H L Hh.
  assert (forall name val, laid ind [start ((name ++ [61]) ++ val ++ stop)] t -> tag_text name val stop t) as One.
  { intros name val K. apply laid_one in K as (sep & S & ->). exists sep, []. split; [exact S|]. split; [left; reflexivity|].
    cbn [p_text start]. rewrite <- !app_assoc. reflexivity. }
  inversion H; subst; clear H.
  - exists (lit "1"). split; [|constructor]. apply One. exact L.
  - exists (alg_text (u_algorithm u)). split; [|constructor]. apply One. exact L.
  - exists (canon_text (u_canonicalization u)). split; [|constructor]. apply One. exact L.
  - exists d. split; [|constructor; assumption]. apply One. exact L.
  - exists d. split; [|constructor; assumption]. apply One. exact L.
  - exists (l ++ [64] ++ d). split; [|econstructor; eassumption]. apply One. rewrite <- !app_assoc. exact L.
  - exists t0. split; [|econstructor; eassumption]. apply One. exact L.
  - exists t0. split; [|econstructor; eassumption]. apply One. exact L.
  - exists t0. split; [|econstructor; eassumption]. apply One. exact L.
  - apply laid_first in L as (sep & t1 & Hsep & -> & H4). assert (laid ind (map inner (t0 :: ts)) (t0 ++ t1)) as K.
    { cbn [map]. apply (laid_cons ind (inner t0) (map inner ts) [] t1); [cbn; auto|assumption]. }
    eapply names_laid in K as (t' & Et & T); [|exact Hh|exact H0]. apply names_front in T as (f & t'' & rest & -> & Hf & T & Er).
    exists t''. split; [|econstructor; eassumption].
    exists sep, f. split; [eapply sep_ofws; eassumption|]. split; [exact Hf|]. cbn [p_text start]. rewrite <- !app_assoc, Et, <- app_assoc. reflexivity.
  - apply laid_first in L as (sep & t1 & Hsep & -> & H4). apply laid_split in H4 as (a & c & -> & A & C). apply laid_glued in C. subst c.
    apply laid_letters in A. apply spaced_front in A as (f & a' & -> & Hf & Ha).
    exists a'. split; [|econstructor; eassumption]. exists sep, f. split; [eapply sep_ofws; eassumption|]. split; [exact Hf|].
    cbn [p_text]. rewrite <- !app_assoc. reflexivity.
  - apply laid_first in L as (sep & t1 & Hsep & -> & H4). apply laid_split in H4 as (a & c & -> & A & C). apply laid_glued in C. subst c.
    apply laid_letters in A. apply spaced_front in A as (f & a' & -> & Hf & Ha).
    exists a'. split; [|econstructor; eassumption]. exists sep, f. split; [eapply sep_ofws; eassumption|]. split; [exact Hf|].
    cbn [p_text]. rewrite <- !app_assoc. reflexivity.
  - apply laid_first in L as (sep & t1 & Hsep & -> & H4). apply laid_split in H4 as (a & c & -> & A & C). apply laid_split in C as (c' & d & -> & C & D).
    apply laid_glued in D. subst d. exists (n0 ++ [58] ++ a ++ c'). split.
    + exists sep, []. split; [eapply sep_ofws; eassumption|]. split; [left; reflexivity|].
      cbn [p_text start]. rewrite <- !app_assoc. reflexivity.
    + eapply tm_z; try eassumption; [apply laid_letters; exact A|eapply copied_laid; eassumption].
  - exists v. split; [|constructor; assumption]. apply One. rewrite <- app_assoc. exact L.
Qed.

Lemma tags_laid : forall ns ps t, tags_pieces idna u asc b ns ps -> laid ind ps t -> u_signed_headers u <> [] -> ns <> [] ->
  (forall n val, In n ns -> tag_means n val -> tag_name_text n /\ (val = [] \/ tag_value_text val)) ->
  exists tags, map fst tags = ns /\ Forall (fun p => tag_means (fst p) (snd p)) tags /\ tag_list_text t tags.
Proof.
  intros ns ps t H. revert t. induction H as [|n ns ps qs H Hq IH]; intros t L Hh Hn Hw; [congruence|].
  apply laid_split in L as (a & c & -> & A & C). eapply tag_laid in A as (val & (f1 & f3 & F1 & F3 & ->) & M); [|exact H|exact Hh].
  destruct (Hw n val (or_introl eq_refl) M) as [N1 N2].
  assert (tag_spec_text (f1 ++ n ++ [61] ++ f3 ++ val) n val) as T.
  { destruct N2 as [->|N2].
    - rewrite app_nil_r. apply (ts_empty f1 [] f3 n); auto. left; reflexivity.
    - replace (f1 ++ n ++ [61] ++ f3 ++ val) with (f1 ++ n ++ [] ++ [61] ++ f3 ++ val ++ []) by (rewrite app_nil_r; reflexivity).
      apply (ts_value f1 [] f3 [] n val); auto; left; reflexivity. }
  destruct ns as [|m ns].
  - exists [(n, val)]. split; [reflexivity|]. split; [constructor; [exact M|constructor]|].
    cbn [is_nil] in *. inv Hq. inv C. rewrite !app_nil_r. constructor. exact T.
  - destruct (IH c C Hh ltac:(discriminate)) as (tags & E & Ms & Tl). { intros k w Hk. apply Hw. right. exact Hk. }
    exists ((n, val) :: tags). split; [cbn; f_equal; exact E|]. split; [constructor; assumption|].
    cbn [is_nil] in *. replace ((f1 ++ n ++ [61] ++ f3 ++ val ++ [59]) ++ c) with ((f1 ++ n ++ [61] ++ f3 ++ val) ++ [59] ++ c)
      by (rewrite <- !app_assoc; reflexivity).
    constructor; assumption.
Qed.

End Tags.

(** ** Values are values *)

Lemma value_run : forall s, s <> [] -> Forall valchar s -> tag_value_text s.
Proof.
  intros [|c s] Hn H; [congruence|]. inv H. apply tag_value_more. exists c, s. split; [reflexivity|]. split; [assumption|].
  apply more_vals_run. assumption.
Qed.

Lemma spaced_more : forall s t, Forall valchar s -> spaced s t -> more_vals t.
Proof. intros s t H K. induction K; [constructor|]. inv H. constructor; auto. Qed.

Lemma packed_value : forall s t, Forall valchar s -> packed s t -> t = [] \/ tag_value_text t.
Proof.
  intros s t H K. destruct K; [left; reflexivity|]. inv H. right. apply tag_value_more. exists c, t.
  split; [reflexivity|]. split; [assumption|]. eapply spaced_more; eassumption.
Qed.

Lemma packed_spaced : forall s t, packed s t -> spaced s t.
Proof. intros s t H. destruct H; [constructor|]. apply (sp_cons [] c); [left; reflexivity|assumption]. Qed.

Lemma visible_valchar : forall s, Forall visible s -> ~ In 59 s -> Forall valchar s.
Proof.
  intros s H K. apply Forall_forall. intros c Hc. rewrite Forall_forall in H. specialize (H c Hc).
  assert (c <> 59) by (intros ->; tauto). unfold visible, valchar in *. lia.
Qed.

Lemma more_vals_fws : forall f s m, ofws f -> s <> [] -> Forall valchar s -> more_vals m -> more_vals (f ++ s ++ m).
Proof.
  intros f [|c s] m Hf Hn Hs Hm; [congruence|]. inv Hs. cbn [app]. constructor; [assumption|assumption|].
  apply more_vals_app; [apply more_vals_run; assumption|assumption].
Qed.

Lemma names_more : forall ns t, Forall (fun n => field_name n /\ ~ In 59 n) ns -> names_text ns t -> more_vals t.
Proof.
  intros ns t H K. induction K; inv H.
  - rewrite <- (app_nil_r n). destruct H3 as [N1 N2]. apply name_visible in N1 as [N1 N3].
    apply more_vals_fws; auto; [apply visible_valchar; assumption|constructor].
  - destruct H3 as [N1 N2]. apply name_visible in N1 as [N1 N3].
    apply more_vals_fws; auto; [apply visible_valchar; assumption|]. apply (more_vals_fws [] [58]); auto; [left; reflexivity|discriminate|].
    constructor; [unfold valchar; lia|constructor].
Qed.

Lemma qp_valchar : forall special asc bs q, Forall is_byte bs -> qp_encoding special asc bs q -> Forall valchar q.
Proof.
  intros special asc bs q Hb H. apply Forall_forall. intros c Hc.
  destruct (encoding_chars _ _ _ _ Hb H c Hc) as [X|(_ & X & _)]; unfold hex_or_eq, dkim_safe, valchar in *; lia.
Qed.

Lemma base64_valchar : forall bs t, Forall is_byte bs -> base64 bs t -> Forall valchar t.
Proof.
  intros bs t Hb H. rewrite (base64_det _ _ _ H (encode_base64_spec _ Hb)). apply Forall_forall. intros c Hc.
  pose proof (encode_base64_chars _ Hb c Hc). unfold valchar. lia.
Qed.

Lemma copied_more : forall asc fs t, Forall (fun f : str * list byte => (field_name (fst f) /\ ~ In 59 (fst f)) /\ Forall is_byte (snd f)) fs ->
  copied_text asc fs t -> more_vals t.
Proof.
  intros asc fs t H K. induction K; [constructor|]. inv H. cbn [fst snd] in *. destruct H6 as [[N1 N2] N3].
  apply name_visible in N1 as [N1 N4].
  apply (more_vals_fws f1 [124]); auto; [discriminate|constructor; [unfold valchar; lia|constructor]|].
  apply more_vals_fws; auto; [apply visible_valchar; assumption|].
  apply (more_vals_fws [] [58]); auto; [left; reflexivity|discriminate|constructor; [unfold valchar; lia|constructor]|].
  apply more_vals_app; [|auto]. eapply spaced_more; [|eassumption]. eapply qp_valchar; eassumption.
Qed.

Lemma lit_value : forall s, s <> [] -> forallb (fun c => (33 <=? c) && (c <=? 126) && negb (c =? 59)) s = true -> tag_value_text s.
Proof.
  intros s Hn H. apply value_run; [exact Hn|]. rewrite forallb_forall in H. apply Forall_forall. intros c Hc. specialize (H c Hc). unfold valchar. lia.
Qed.

Lemma lit_name : forall s, TagList.is_tag_name (lit s) = true -> tag_name_text (lit s).
Proof. intros s H. apply is_tag_name_spec. exact H. Qed.

Lemma more_value : forall c m, valchar c -> more_vals (c :: m) -> tag_value_text (c :: m).
Proof.
  intros c m Hc H. apply tag_value_more. exists c, m. split; [reflexivity|]. split; [exact Hc|]. inversion H; subst.
  destruct f as [|x f]; [injection H0 as _ <-; assumption|]. injection H0 as -> _. exfalso.
  eapply ofws_head; [eassumption|]. apply (val_not_ws c []). exact Hc.
Qed.

Section Values.
Variable E : Env.
Notation idna := (env_idna E).
Variable u : USig.
Hypothesis IO : idna_ok idna.
Hypothesis S : sound_usig E u.

Lemma domain_value : forall asc d t tld, domain_text idna d tld -> written_form idna asc d t -> t <> [] /\ Forall valchar t.
Proof using IO.
  intros asc d t tld D W. split.
  { apply (written_domain _ _ _ _ _ IO D) in W as (W & _). exact (domain_nonempty _ _ _ IO W). }
  apply (written_chars _ _ _ _ _ IO D) in W. eapply Forall_impl; [|exact W]. unfold dchar, letter_digit, valchar. clear. intros; lia.
Qed.

Lemma means_value : forall asc b n val, Forall valchar b -> tag_means idna u asc b n val ->
  tag_name_text n /\ (val = [] \/ tag_value_text val).
Proof using IO S.
  intros asc b n val Hb H. destruct H.
  - split; [apply lit_name; reflexivity|]. right. apply lit_value; [discriminate|reflexivity].
  - split; [apply lit_name; reflexivity|]. right. destruct (u_algorithm u); (apply lit_value; [discriminate|reflexivity]).
  - split; [apply lit_name; reflexivity|]. right. unfold canon_text. destruct (c_header _), (c_body _); (apply lit_value; [discriminate|reflexivity]).
  - split; [apply lit_name; reflexivity|]. right. apply (domain_value _ _ _ _ (su_domain _ _ S)) in H as []. apply value_run; assumption.
  - split; [apply lit_name; reflexivity|]. right. apply (domain_value _ _ _ _ (su_selector _ _ S)) in H as []. apply value_run; assumption.
  - split; [apply lit_name; reflexivity|]. right. destruct (su_identity _ _ S i H) as (D & L & _).
    apply (domain_value _ _ _ _ D) in H0 as [D1 D2]. apply value_run; [destruct l; discriminate|].
    apply Forall_app. split; [|constructor; [unfold valchar; clear; lia|assumption]].
    eapply qp_valchar; [|eassumption]. destruct (id_local_part i); cbn [unwrap_or]; [|constructor]. apply as_bytes_bytes. auto.
  - split; [apply lit_name; reflexivity|]. right. destruct H0 as (D1 & D2 & _). apply value_run; [exact D1|].
    eapply Forall_impl; [|exact D2]. unfold valchar. clear. intros; lia.
  - split; [apply lit_name; reflexivity|]. right. destruct H0 as (D1 & D2 & _). apply value_run; [exact D1|].
    eapply Forall_impl; [|exact D2]. unfold valchar. clear. intros; lia.
  - split; [apply lit_name; reflexivity|]. right. destruct H0 as (D1 & D2 & _). apply value_run; [exact D1|].
    eapply Forall_impl; [|exact D2]. unfold valchar. clear. intros; lia.
  - split; [apply lit_name; reflexivity|]. right. pose proof (names_more _ _ (su_names _ _ S) H) as M. subst t.
    pose proof (su_names _ _ S) as K. destruct (u_signed_headers u) as [|n ns]; [inv H|]. inv K. destruct H2 as [N1 N2].
    apply name_visible in N1 as [N1 N3]. apply visible_valchar in N3; [|exact N2]. cbn [hd] in *.
    destruct n as [|c n]; [congruence|]. inv N3. cbn [app] in *. apply more_value; assumption.
  - split; [apply lit_name; reflexivity|]. eapply packed_value; [|eassumption]. eapply base64_valchar; [|eassumption]. apply S.
  - split; [apply lit_name; reflexivity|]. eapply packed_value; eassumption.
  - split; [apply lit_name; reflexivity|]. right. pose proof (su_copied _ _ S) as K. rewrite H in K. inv K. cbn [fst snd] in *.
    destruct H5 as [[N1 N2] N3]. apply name_visible in N1 as [N1 N4]. apply visible_valchar in N4; [|exact N2].
    assert (more_vals (n ++ [58] ++ t ++ t')) as M.
    { apply (more_vals_fws [] n); auto; [left; reflexivity|].
      apply (more_vals_fws [] [58]); auto; [left; reflexivity|discriminate|constructor; [unfold valchar; clear; lia|constructor]|].
      apply more_vals_app; [|eapply copied_more; eassumption]. eapply spaced_more; [|eassumption]. eapply qp_valchar; eassumption. }
    destruct n as [|c n]; [congruence|]. inv N4. cbn [app] in *. apply more_value; assumption.
  - destruct (su_ext _ _ S _ _ H) as (X & Y & _). auto.
Qed.

(** ** The meaning of each tag *)

Ltac wrong_tag := match goal with X : lit _ = lit _ |- _ => apply lit_inj in X; discriminate X end.
Ltac only_tag :=
  intros asc b n val H; destruct H; intros X; try wrong_tag;
  try (match goal with K : In (?m, _) (u_ext_tags u) |- _ =>
         exfalso; destruct (su_ext _ _ S _ _ K) as (_ & _ & K2); apply K2; rewrite X; cbn; tauto end).

Lemma means_v : forall asc b n val, tag_means idna u asc b n val -> n = lit "v" -> val = lit "1".
Proof using S. only_tag. reflexivity. Qed.
Lemma means_a : forall asc b n val, tag_means idna u asc b n val -> n = lit "a" -> val = alg_text (u_algorithm u).
Proof using S. only_tag. reflexivity. Qed.
Lemma means_c : forall asc b n val, tag_means idna u asc b n val -> n = lit "c" -> val = canon_text (u_canonicalization u).
Proof using S. only_tag. reflexivity. Qed.
Lemma means_d : forall asc b n val, tag_means idna u asc b n val -> n = lit "d" -> written_form idna asc (u_domain u) val.
Proof using S. only_tag. assumption. Qed.
Lemma means_s : forall asc b n val, tag_means idna u asc b n val -> n = lit "s" -> written_form idna asc (u_selector u) val.
Proof using S. only_tag. assumption. Qed.
Lemma means_i : forall asc b n val, tag_means idna u asc b n val -> n = lit "i" ->
  exists i d l, u_identity u = Some i /\ written_form idna asc (id_domain i) d
    /\ qp_encoding None asc (as_bytes (unwrap_or (id_local_part i) [])) l /\ val = l ++ [64] ++ d.
Proof using S. only_tag. eauto 10. Qed.
Lemma means_l : forall asc b n val, tag_means idna u asc b n val -> n = lit "l" -> exists k, u_body_length u = Some k /\ decimal_text val k.
Proof using S. only_tag. eauto. Qed.
Lemma means_t : forall asc b n val, tag_means idna u asc b n val -> n = lit "t" -> exists k, u_timestamp u = Some k /\ decimal_text val k.
Proof using S. only_tag. eauto. Qed.
Lemma means_x : forall asc b n val, tag_means idna u asc b n val -> n = lit "x" -> exists k, u_expiration u = Some k /\ decimal_text val k.
Proof using S. only_tag. eauto. Qed.
Lemma means_h : forall asc b n val, tag_means idna u asc b n val -> n = lit "h" -> names_text (u_signed_headers u) val.
Proof using S. only_tag. assumption. Qed.
Lemma means_bh : forall asc b n val, tag_means idna u asc b n val -> n = lit "bh" -> exists s, base64 (u_body_hash u) s /\ packed s val.
Proof using S. only_tag. eauto. Qed.
Lemma means_b : forall asc b n val, tag_means idna u asc b n val -> n = lit "b" -> packed b val.
Proof using S. only_tag. assumption. Qed.
Lemma means_z : forall asc b n val, tag_means idna u asc b n val -> n = lit "z" ->
  exists m v q t fs t', u_copied_headers u = (m, v) :: fs /\ qp_encoding (Some 124) asc v q /\ spaced q t
    /\ copied_text asc fs t' /\ val = m ++ [58] ++ t ++ t'.
Proof using S. only_tag. exists n, v, q, t, fs, t'. auto 10. Qed.

End Values.

(** ** Reading the values *)

Lemma number_ok : forall t n, decimal_text t n -> n < 2^64 -> number_text t n.
Proof. intros t n (H1 & H2 & H3 & _) H. exists t. subst n. auto 10. Qed.

Lemma alg_ok : forall pre a, (a = RsaSha1 -> pre = true) -> algorithm_text pre (alg_text a) a.
Proof. intros pre a H. destruct a; constructor; auto; reflexivity. Qed.

Lemma canon_ok : forall c, canonicalization_text (canon_text c) c.
Proof.
  intros [h b]. unfold canon_text. cbn [c_header c_body]. destruct h, b.
  - apply (cz_both (lit "simple") (lit "simple")); constructor; reflexivity.
  - apply (cz_both (lit "simple") (lit "relaxed")); constructor; reflexivity.
  - apply cz_header; constructor; reflexivity.
  - apply (cz_both (lit "relaxed") (lit "relaxed")); constructor; reflexivity.
Qed.

Lemma ofws_blank : forall f, ofws f -> Forall (fun c => c = 32 \/ c = 9 \/ c = 13 \/ c = 10) f.
Proof. intros f H. apply Forall_forall. intros c Hc. exact (ofws_chars f c H Hc). Qed.

Lemma spaced_inserted : forall (P : str -> Prop) s t f, (forall f, ofws f -> P f) -> ofws f -> spaced s t -> inserted P s (t ++ f).
Proof.
  intros P s t f HP Hf H. induction H; [constructor; auto|]. rewrite <- app_assoc. cbn [app]. constructor; auto.
Qed.

Lemma base64_ok : forall bs s t, Forall is_byte bs -> base64 bs s -> spaced s t -> base64_text t bs.
Proof.
  intros bs s t Hb H K. split; [exact Hb|]. exists s. split; [exact H|]. rewrite <- (app_nil_r t).
  apply spaced_inserted; [exact ofws_blank|left; reflexivity|exact K].
Qed.

Lemma names_ok : forall ns t, Forall (fun n => field_name n /\ ~ In 59 n) ns -> names_text ns t -> signed_headers_text t ns.
Proof.
  intros ns t H K. split; [|eapply Forall_impl; [|exact H]; cbn; tauto].
  assert (Forall (fun n => tag_value_text n /\ ~ In 58 n) ns) as H'.
  { eapply Forall_impl; [|exact H]. intros n [N1 N2]. pose proof N1 as N0. apply name_visible in N1 as [N1 N3]. split.
    - apply value_run; [exact N1|]. apply visible_valchar; assumption.
    - apply field_name_ascii in N0. tauto. }
  clear H. induction K.
  - inv H'. exists [f ++ n]. split; [discriminate|]. split; [reflexivity|]. split; [|constructor; [tauto|constructor]].
    constructor; [|constructor]. exists f, []. rewrite app_nil_r. split; [assumption|]. split; [left; reflexivity|]. split; [reflexivity|]. right. tauto.
  - inv H'. destruct (IHK H3) as (raws & R1 & -> & R2 & R3). exists ((f ++ n) :: raws). split; [discriminate|].
    split; [|split].
    + destruct raws; [congruence|]. cbn [colon_joined]. rewrite <- !app_assoc. reflexivity.
    + constructor; [|exact R2]. exists f, []. rewrite app_nil_r. split; [assumption|]. split; [left; reflexivity|]. split; [reflexivity|]. right. tauto.
    + constructor; [tauto|exact R3].
Qed.

Lemma qp_items_app : forall s bs s' bs', qp_items s bs -> qp_items s' bs' -> qp_items (s ++ s') (bs ++ bs').
Proof.
  intros s bs s' bs' H K. induction H.
  - exact K.
  - cbn [app]. rewrite <- !app_assoc. constructor; auto.
  - cbn [app]. rewrite <- app_assoc. cbn [app]. rewrite <- app_assoc. cbn [app]. rewrite <- app_assoc. econstructor; eauto.
Qed.

Lemma qp_items_safe : forall s, Forall dkim_safe s -> qp_items s (as_bytes s).
Proof.
  induction 1; [constructor|]. change (x :: l) with (x :: [] ++ l). 
  replace (as_bytes (x :: [] ++ l)) with (utf8_char x ++ as_bytes l) by reflexivity.
  constructor; auto. left; reflexivity.
Qed.

Lemma identity_ok : forall E u i d l asc, idna_ok (env_idna E) -> sound_usig E u -> u_identity u = Some i ->
  written_form (env_idna E) asc (id_domain i) d -> Forall is_scalar (id_domain i) ->
  (forall p, id_local_part i = Some p -> local_part p) ->
  qp_encoding None asc (as_bytes (unwrap_or (id_local_part i) [])) l ->
  identity_tag_text (env_idna E) (l ++ [64] ++ d) (mkIdentity (id_local_part i) d).
Proof.
  intros E u i d l asc IO S Hi W Sc Hl Q. destruct (su_identity _ _ S i Hi) as (D & Ls & _).
  destruct (written_domain _ _ _ _ _ IO D W) as (D' & _ & Sc'). specialize (Sc' Sc).
  pose proof (written_chars _ _ _ _ _ IO D W) as Dc.
  assert (Forall is_scalar (unwrap_or (id_local_part i) [])) as Lsc.
  { destruct (id_local_part i); cbn [unwrap_or]; [auto|constructor]. }
  exists (unwrap_or (id_local_part i) [] ++ [64] ++ d). split; [|split].
  - apply Forall_app. split; [exact Lsc|]. constructor; [unfold is_scalar; lia|exact Sc'].
  - exists [], (l ++ [64] ++ d). split; [left; reflexivity|]. split; [reflexivity|].
    rewrite as_bytes_app. apply qp_items_app.
    + eapply encoding_text; [|exact Q]. apply as_bytes_bytes. exact Lsc.
    + apply qp_items_safe. constructor; [unfold dkim_safe; lia|]. eapply Forall_impl; [|exact Dc].
      unfold dchar, letter_digit, dkim_safe. clear. intros; lia.
  - split; [|split; [exact D'|]].
    + cbn [id_domain]. intros X. rewrite Forall_forall in Dc. specialize (Dc _ X). unfold dchar, letter_digit in Dc. lia.
    + cbn [id_local_part id_domain]. destruct (id_local_part i) as [p|] eqn:Ep; cbn [unwrap_or]; [|reflexivity]. split; [reflexivity|]. auto.
Qed.

(** copied header fields *)
Lemma name_items : forall n, field_name n -> ~ In 59 n -> ~ In 61 n -> Forall dkim_safe n /\ as_bytes n = n.
Proof.
  intros n N H1 H2. split; [|apply field_name_ascii; exact N]. destruct N as [_ N]. apply Forall_forall. intros c Hc. rewrite Forall_forall in N.
  specialize (N c Hc). assert (c <> 59) by (intros ->; tauto). assert (c <> 61) by (intros ->; tauto).
  unfold ftext, dkim_safe in *. lia.
Qed.

Lemma spaced_plain : forall s s' t, spaced s' t -> spaced (s ++ s') (s ++ t).
Proof. induction s; intros; cbn [app]; [assumption|]. apply (sp_cons [] a); [left; reflexivity|auto]. Qed.

Lemma spaced_in : forall s t c, spaced s t -> In c t -> In c s \/ c = 32 \/ c = 9 \/ c = 13 \/ c = 10.
Proof.
  intros s t c H. induction H; intros X; [destruct X|]. apply in_app_iff in X as [X|[X|X]].
  - right. eapply ofws_chars; eassumption.
  - left. left. exact X.
  - destruct (IHspaced X); [left; right; assumption|auto].
Qed.

Lemma field_piece : forall asc n v q f t g, field_name n -> ~ In 59 n -> ~ In 61 n -> ~ In 124 n -> Forall is_byte v ->
  qp_encoding (Some 124) asc v q -> ofws f -> spaced q t -> ofws g ->
  ~ In 124 (f ++ n ++ [58] ++ t ++ g) /\ qp_text (f ++ n ++ [58] ++ t ++ g) (n ++ [58] ++ v).
Proof.
  intros asc n v q f t g N1 N2 N3 N4 Hv Q Hf Ht Hg. split.
  - intros X. rewrite !in_app_iff in X. destruct X as [X|[X|[X|[X|X]]]].
    + apply ofws_chars in X; [|exact Hf]. lia.
    + tauto.
    + destruct X as [X|[]]. lia.
    + destruct (spaced_in _ _ _ Ht X) as [Y|Y]; [|lia]. destruct (encoding_chars _ _ _ _ Hv Q _ Y) as [Z|(_ & _ & Z & _)].
      * unfold hex_or_eq in Z. lia.
      * congruence.
    + apply ofws_chars in X; [|exact Hg]. lia.
  - destruct (name_items n N1 N2 N3) as [Ns Nb].
    assert (qp_items (n ++ [58] ++ q) (n ++ [58] ++ v)) as I.
    { apply qp_items_app; [rewrite <- Nb at 2; apply qp_items_safe; exact Ns|]. apply qp_items_app; [|eapply encoding_text; eassumption].
      apply (qp_items_safe [58]). constructor; [unfold dkim_safe; lia|constructor]. }
    apply (items_inserted _ _ I).
    + intros c Hc. rewrite !in_app_iff in Hc. destruct Hc as [Hc|[Hc|Hc]].
      * rewrite Forall_forall in Ns. specialize (Ns c Hc). unfold dkim_safe in Ns. lia.
      * destruct Hc as [<-|[]]. lia.
      * eapply encoding_no_blank; eassumption.
    + destruct n as [|c n]; [exfalso; apply (proj1 N1); reflexivity|].
      pose proof (sp_cons f c _ _ Hf (spaced_plain (n ++ [58]) _ _ Ht)) as K.
      apply (spaced_inserted ofws _ _ g (fun f h => h) Hg) in K. rewrite <- ?app_assoc in K. cbn [app] in *.
      rewrite <- ?app_assoc in K. exact K.
Qed.

Definition copied_sound (fs : list (str * list byte)) : Prop :=
  Forall (fun f => (field_name (fst f) /\ ~ In 59 (fst f)) /\ Forall is_byte (snd f)) fs
  /\ Forall (fun f => ~ In 61 (fst f) /\ ~ In 124 (fst f)) fs.

Lemma copied_ok' : forall asc fs t', copied_text asc fs t' -> forall n v q f t, copied_sound ((n, v) :: fs) ->
  qp_encoding (Some 124) asc v q -> ofws f -> spaced q t ->
  copied_headers_text (f ++ n ++ [58] ++ t ++ t') ((n, v) :: fs).
Proof.
  intros asc fs t' H. induction H as [|n1 v1 q1 fs f1 f2 t1 t1' F1 F2 Q1 T1 _ IH]; intros n v q f t (C1 & C2) Q F T.
  - inv C1. inv C2. cbn [fst snd] in *. destruct H1 as [[N1 N2] N3]. destruct H3 as [N4 N5].
    destruct (field_piece asc n v q f t [] N1 N2 N4 N5 N3 Q F T (or_introl eq_refl)) as [P1 P2].
    exists [f ++ n ++ [58] ++ t ++ []]. split; [discriminate|]. split; [constructor; [exact P1|constructor]|].
    split; [reflexivity|]. constructor; [|constructor]. auto.
  - inv C1. inv C2. cbn [fst snd] in *. destruct H1 as [[N1 N2] N3]. destruct H3 as [N4 N5].
    destruct (IH n1 v1 q1 f2 t1 (conj H2 H4) Q1 F2 T1) as (ps & P1 & P2 & P3 & P4).
    destruct (field_piece asc n v q f t f1 N1 N2 N4 N5 N3 Q F T F1) as [P5 P6].
    exists ((f ++ n ++ [58] ++ t ++ f1) :: ps). split; [discriminate|]. split; [constructor; assumption|]. split.
    + destruct ps as [|p ps]; [congruence|]. change (bar_joined ((f ++ n ++ [58] ++ t ++ f1) :: p :: ps))
        with ((f ++ n ++ [58] ++ t ++ f1) ++ [124] ++ bar_joined (p :: ps)). rewrite <- P3. rewrite <- !app_assoc. reflexivity.
    + constructor; [|exact P4]. auto.
Qed.

(** ** All tags together *)

Lemma NoDup_fst_eq : forall A B (l : list (A * B)) n v w, NoDup (map fst l) -> In (n, v) l -> In (n, w) l -> v = w.
Proof.
  intros A B. induction l as [|(a & c) l IH]; intros n v w H X Y; [destruct X|]. cbn [map fst] in H. inv H.
  destruct X as [X|X], Y as [Y|Y].
  - congruence.
  - injection X as -> ->. exfalso. apply H2. apply in_map_iff. exists (n, w). auto.
  - injection Y as -> ->. exfalso. apply H2. apply in_map_iff. exists (n, v). auto.
  - eapply IH; eassumption.
Qed.

Section Reading.
Variable E : Env.
Notation idna := (env_idna E).
Variable u : USig.
Variable asc : bool.
Variable sig : list byte.
Variable b64 : str.
Variable tags : list (str * str).
Hypothesis IO : idna_ok idna.
Hypothesis S : sound_usig E u.
Hypothesis Hsig : Forall is_byte sig.
Hypothesis Hb64 : base64 sig b64.
Hypothesis Hmeans : Forall (fun p => tag_means idna u asc b64 (fst p) (snd p)) tags.
Hypothesis Hnodup : NoDup (map fst tags).
Hypothesis Hperm : Permutation (map fst tags) (default_names u).

Let specs := map (fun p => mkTag (fst p) (snd p)) tags.

Lemma spec_names : map tag_name specs = map fst tags.
Proof using. unfold specs. rewrite map_map. apply map_ext. reflexivity. Qed.

Lemma get_means : forall n val, tag_get n specs = Some val <-> In (n, val) tags.
Proof using Hnodup.
  intros n val. rewrite tag_get_In by (rewrite spec_names; exact Hnodup). unfold specs. rewrite in_map_iff. split.
  - intros ((a & c) & X & Y). injection X as <- <-. exact Y.
  - intros X. exists (n, val). auto.
Qed.

Lemma present : forall k, In (k, true) (tag_table u) -> exists val, get k specs = Some val /\ tag_means idna u asc b64 (lit k) val.
Proof using Hnodup Hperm Hmeans.
  intros k H. assert (In (lit k) (map fst tags)) as X.
  { eapply Permutation_in; [symmetry; exact Hperm|]. unfold default_names. apply in_app_iff. left. apply in_map_iff.
    exists (k, true). split; [reflexivity|]. apply filter_In. auto. }
  apply in_map_iff in X as ((n & val) & Ef & Hi). cbn in Ef. subst n. exists val. split; [apply get_means; exact Hi|].
  rewrite Forall_forall in Hmeans. exact (Hmeans _ Hi).
Qed.

Lemma absent : forall k, ~ In (lit k) (default_names u) -> get k specs = None.
Proof using Hperm.
  intros k H. apply tag_get_none. rewrite spec_names. intros X. apply H. eapply Permutation_in; [exact Hperm|exact X].
Qed.

Lemma table_absent : forall k, In (k, false) (tag_table u) -> get k specs = None.
Proof using Hperm S.
  intros k H. apply absent. unfold default_names. rewrite in_app_iff, !in_map_iff. intros [((m & y) & X & Y)|((m & y) & X & Y)].
  - cbn [fst] in X. apply lit_inj in X. subst m. apply filter_In in Y as [Y Z]. cbn in Z. subst y.
    unfold tag_table in *. cbn [In] in H, Y. repeat destruct H as [H|H]; try (injection H as <- H1); repeat destruct Y as [Y|Y]; try (injection Y as Y1 Y2); try congruence; try tauto.
  - cbn [fst] in X. subst m. destruct (su_ext _ _ S _ _ Y) as (_ & _ & K). apply K. apply (written_names u). apply in_map_iff. exists (k, false). auto.
Qed.

Lemma optional_read : forall A (R : str -> A -> Prop) k (v : option A), In (k, is_some v) (tag_table u) ->
  (forall val, tag_means idna u asc b64 (lit k) val -> exists x, v = Some x /\ R val x) -> optional R (get k specs) v.
Proof using Hnodup Hperm Hmeans S.
  intros A R k v Hk H. destruct v as [x|]; cbn [is_some] in Hk.
  - destruct (present k Hk) as (val & G & M). rewrite G. destruct (H val M) as (y & Y & Z). injection Y as <-. exact Z.
  - rewrite (table_absent k Hk). exact I.
Qed.

Lemma ext_in : ~ In (lit "q") (map fst (u_ext_tags u)) -> forall n v, In (n, v) (ext_tags known_sig_tags specs) <-> In (n, v) (u_ext_tags u).
Proof using Hnodup Hperm Hmeans S.
  intros Hq. assert (forall ts n v, In (n, v) (ext_tags known_sig_tags ts) <-> In (mkTag n v) ts /\ ~ In n known_sig_tags) as X.
  { induction ts as [|t ts IH]; intros n v; cbn [ext_tags In]; [tauto|]. destruct (mem_str (tag_name t) known_sig_tags) eqn:M.
    - apply mem_str_In in M. rewrite IH. split; [tauto|]. intros [[->|Y] Z]; [cbn [tag_name] in M; tauto|tauto].
    - assert (~ In (tag_name t) known_sig_tags) as M'. { intros Y. apply mem_str_In in Y. congruence. }
      cbn [In]. rewrite IH. destruct t as [a c]. cbn [tag_name tag_value] in *. split.
      + intros [Y|Y]; [injection Y as -> ->; auto|tauto].
      + intros [[Y|Y] Z]; [injection Y as -> ->; auto|tauto]. }
  intros n v. rewrite X. clear X. unfold specs. rewrite in_map_iff. split.
  - intros [((a & c) & Y & Hi) K]. injection Y as -> ->. rewrite Forall_forall in Hmeans. pose proof (Hmeans _ Hi) as M. cbn [fst snd] in M.
    destruct M; try (exfalso; apply K; cbn; tauto; fail). assumption.
  - intros Hi. destruct (su_ext _ _ S _ _ Hi) as (N1 & _ & N2). split.
    + assert (In n (map fst tags)) as X.
      { eapply Permutation_in; [symmetry; exact Hperm|]. unfold default_names. apply in_app_iff. right. apply in_map_iff. exists (n, v). auto. }
      apply in_map_iff in X as ((a & c) & Y & Z). cbn in Y. subst a. exists (n, c). split; [|exact Z].
      rewrite Forall_forall in Hmeans. pose proof (Hmeans _ Z) as M. cbn [fst snd] in M.
      destruct M; try (exfalso; apply N2; cbn; tauto; fail).
      f_equal. eapply NoDup_fst_eq; [apply (su_ext_nodup _ _ S)|eassumption|exact Hi].
    + intros K. assert (In n written_tags \/ n = lit "q") as [K'|K'].
      { cbn [known_sig_tags written_tags map In] in *. intuition. }
      * exact (N2 K').
      * subst n. apply Hq. apply in_map_iff. exists (lit "q", v). auto.
Qed.

Lemma same_names_eq : forall (te ext : list (str * str)), map fst te = map fst ext -> NoDup (map fst ext) ->
  (forall p, In p te -> In p ext) -> te = ext.
Proof using.
  induction te as [|(n & v) te IH]; intros [|(m & w) ext] H ND K; try discriminate; [reflexivity|].
  cbn [map fst] in *. injection H as <- H. pose proof ND as ND'. inv ND. f_equal.
  - f_equal. eapply NoDup_fst_eq; [|apply K; left; reflexivity|left; reflexivity]. exact ND'.
  - apply IH; auto. intros p Hp. destruct (K p (or_intror Hp)) as [X|X]; [|exact X]. subst p. exfalso. apply H2.
    rewrite <- H. apply in_map_iff. exists (n, w). auto.
Qed.

Lemma ext_same : ~ In (lit "q") (map fst (u_ext_tags u)) -> map fst tags = default_names u -> ext_tags known_sig_tags specs = u_ext_tags u.
Proof using Hnodup Hperm Hmeans S.
  intros Hq H. apply same_names_eq; [|apply S|intros (n & v); apply ext_in; exact Hq].
  assert (forall ts, map fst (ext_tags known_sig_tags ts) = filter (fun n => negb (mem_str n known_sig_tags)) (map tag_name ts)) as X.
  { induction ts as [|t ts IH]; cbn [ext_tags map filter]; [reflexivity|]. destruct (mem_str (tag_name t) known_sig_tags); cbn [negb map fst]; [exact IH|]. f_equal. exact IH. }
  rewrite X, spec_names, H. unfold default_names. rewrite filter_app.
  assert (forall (p : str -> bool) l, (forall x, In x l -> p x = false) -> filter p l = []) as F0.
  { intros p. induction l as [|x l IH]; intros Hp; [reflexivity|]. cbn [filter]. rewrite (Hp x (or_introl eq_refl)). apply IH. intros y Hy. apply Hp. right. exact Hy. }
  assert (forall (p : str -> bool) l, (forall x, In x l -> p x = true) -> filter p l = l) as F1.
  { intros p. induction l as [|x l IH]; intros Hp; [reflexivity|]. cbn [filter]. rewrite (Hp x (or_introl eq_refl)). f_equal. apply IH. intros y Hy. apply Hp. right. exact Hy. }
  rewrite F0, F1; [reflexivity| |].
  - intros n Hn. apply in_map_iff in Hn as ((m & v) & <- & Hi). cbn [fst]. destruct (mem_str m known_sig_tags) eqn:M; [|reflexivity].
    apply mem_str_In in M. exfalso. destruct (su_ext _ _ S _ _ Hi) as (_ & _ & N2).
    assert (In m written_tags \/ m = lit "q") as [K'|K'].
    { cbn [known_sig_tags written_tags map In] in *. intuition. }
    + exact (N2 K').
    + subst m. apply Hq. apply in_map_iff. exists (lit "q", v). auto.
  - intros n Hn. replace (mem_str n known_sig_tags) with true; [reflexivity|]. symmetry. apply mem_str_In.
    apply in_map_iff in Hn as ((k & y) & <- & Hi). apply filter_In in Hi as [Hi _]. cbn [fst].
    assert (In (lit k) written_tags) as W. { apply (written_names u). apply in_map_iff. exists (k, y). auto. }
    cbn [known_sig_tags written_tags map In] in *. intuition.
Qed.

Lemma ext_nodup : NoDup (map fst (ext_tags known_sig_tags specs)).
Proof using Hnodup.
  assert (NoDup (map tag_name specs)) as X by (rewrite spec_names; exact Hnodup). revert X. generalize specs as ts.
  assert (forall ts n, In n (map fst (ext_tags known_sig_tags ts)) -> In n (map tag_name ts)) as Y.
  { induction ts as [|t ts IH]; intros n; cbn [ext_tags map In]; [auto|]. destruct (mem_str _ _); cbn [map In fst]; intuition. }
  induction ts as [|t ts IH]; intros X; cbn [ext_tags]; [constructor|]. cbn [map] in X. inv X.
  destruct (mem_str _ _); [auto|]. cbn [map fst]. constructor; [|auto]. intros K. apply H1. apply Y. exact K.
Qed.

(** the tag q= is never written, except as an additional tag *)
Lemma q_ext : forall v, get "q" specs = Some v <-> In (lit "q", v) (u_ext_tags u).
Proof using Hnodup Hperm Hmeans S.
  assert (forall v, get "q" specs = Some v -> In (lit "q", v) (u_ext_tags u)) as F.
  { intros v G. apply get_means in G. rewrite Forall_forall in Hmeans. specialize (Hmeans _ G). cbn [fst snd] in Hmeans.
    remember (lit "q") as n eqn:En. destruct Hmeans; try discriminate En. subst n. assumption. }
  intros v. split; [apply F|]. intros X.
  assert (In (lit "q") (map fst tags)) as Y.
  { eapply Permutation_in; [symmetry; exact Hperm|]. unfold default_names. apply in_app_iff. right. apply in_map_iff. exists (lit "q", v). auto. }
  apply in_map_iff in Y as ((n & w) & Y & Z). cbn [fst] in Y. subst n. apply get_means in Z. eapply eq_trans; [exact Z|]. f_equal.
  eapply NoDup_fst_eq; [apply (su_ext_nodup _ _ S)|apply F; exact Z|exact X].
Qed.

Theorem read_signature :
  sig <> [] -> u_body_hash u <> [] -> (u_algorithm u = RsaSha1 -> env_pre E = true) ->
  (forall l, u_body_length u = Some l -> l < 2^64) -> (forall t, u_timestamp u = Some t -> t < 2^64) ->
  (forall x, u_expiration u = Some x -> x < 2^64 /\ forall t, u_timestamp u = Some t -> t < x) ->
  (forall i, u_identity u = Some i -> Forall is_scalar (id_domain i) /\ forall l, id_local_part i = Some l -> local_part l) ->
  Forall (fun f => ~ In 61 (fst f) /\ ~ In 124 (fst f)) (u_copied_headers u) ->
  (forall v, In (lit "q", v) (u_ext_tags u) -> exists ms, query_methods_text v ms /\ exists m, In m ms /\ named m "dns/txt") ->
  exists d s i,
    written_form idna asc (u_domain u) d /\ written_form idna asc (u_selector u) s
    /\ match u_identity u, i with
       | None, None => True
       | Some i, Some i' => id_local_part i' = id_local_part i /\ written_form idna asc (id_domain i) (id_domain i')
       | _, _ => False
       end
    /\ signature_of (env_pre E) idna specs
         (mkSig (u_algorithm u) sig (u_body_hash u) (u_canonicalization u) d (u_signed_headers u) i (u_body_length u) s
            (u_timestamp u) (u_expiration u) (u_copied_headers u) (ext_tags known_sig_tags specs)).
Proof using All.
  intros Hs Hbh Ha Hl Ht Hx Hi Hz Hq.
  destruct (present "d") as (d & Gd & Md); [cbn; tauto|]. apply (means_d E u S) in Md; [|reflexivity].
  destruct (present "s") as (s & Gs & Ms); [cbn; tauto|]. apply (means_s E u S) in Ms; [|reflexivity].
  destruct (written_domain _ _ _ _ _ IO (su_domain _ _ S) Md) as (Dd & Ad & _).
  destruct (written_domain _ _ _ _ _ IO (su_selector _ _ S) Ms) as (Ds & _ & _).
  assert (exists i', match u_identity u, i' with
       | None, None => get "i" specs = None
       | Some i, Some i' => id_local_part i' = id_local_part i /\ written_form idna asc (id_domain i) (id_domain i')
            /\ exists t, get "i" specs = Some t /\ identity_tag_text idna t i'
       | _, _ => False
       end) as (i' & Hi').
  { destruct (u_identity u) as [i|] eqn:Ei.
    - destruct (present "i") as (t & G & M); [cbn; rewrite Ei; tauto|]. apply (means_i E u S) in M as (j & dj & l & Ej & W & Q & ->); [|reflexivity].
      assert (j = i) as -> by congruence. exists (Some (mkIdentity (id_local_part i) dj)). cbn [id_local_part id_domain].
      split; [reflexivity|]. split; [exact W|]. exists (l ++ [64] ++ dj). split; [exact G|].
      destruct (Hi i eq_refl) as [X Y]. eapply identity_ok; try eassumption.
    - exists None. apply table_absent. cbn. rewrite Ei. tauto. }
  exists d, s, i'. split; [exact Md|]. split; [exact Ms|]. split.
  { destruct (u_identity u), i'; tauto. }
  unfold signature_of. cbn [s_algorithm s_signature_data s_body_hash s_canonicalization s_domain s_signed_headers s_identity
    s_body_length s_selector s_timestamp s_expiration s_copied_headers s_ext_tags].
  split. { destruct (present "v") as (v & G & M); [cbn; tauto|]. apply (means_v E u S) in M; [|reflexivity]. congruence. }
  split. { destruct (present "a") as (v & G & M); [cbn; tauto|]. apply (means_a E u S) in M; [|reflexivity]. exists v. split; [exact G|]. subst v. apply alg_ok. exact Ha. }
  split. { destruct (present "b") as (v & G & M); [cbn; tauto|]. apply (means_b E u S) in M; [|reflexivity]. exists v. split; [exact G|].
    split; [|exact Hs]. eapply base64_ok; try eassumption. apply packed_spaced. exact M. }
  split. { destruct (present "bh") as (v & G & M); [cbn; tauto|]. apply (means_bh E u S) in M as (x & X1 & X2); [|reflexivity]. exists v. split; [exact G|].
    split; [|exact Hbh]. eapply base64_ok; [apply S|eassumption|]. apply packed_spaced. exact X2. }
  split. { destruct (u_canonicalization u) as [h b] eqn:Ec.
    assert (h = Simple /\ b = Simple \/ In ("c"%string, true) (tag_table u)) as [[-> ->]|Hc].
    { destruct h, b; auto; right; cbn; rewrite Ec; tauto. }
    - rewrite (table_absent "c"); [reflexivity|]. cbn. rewrite Ec. tauto.
    - destruct (present "c" Hc) as (v & G & M). apply (means_c E u S) in M; [|reflexivity]. rewrite G. subst v. rewrite Ec. apply canon_ok. }
  split. { split; assumption. }
  split. { destruct (present "h") as (v & G & M); [cbn; tauto|]. apply (means_h E u S) in M; [|reflexivity]. exists v. split; [exact G|].
    split; [apply names_ok; [apply S|exact M]|apply S]. }
  split. { destruct (u_identity u) as [i|]; destruct i' as [i'|]; try (exfalso; exact Hi').
    - destruct Hi' as (_ & _ & t & G & T). rewrite G. exact T.
    - rewrite Hi'. exact I. }
  split. { apply optional_read; [cbn; tauto|]. intros v M. apply (means_l E u S) in M as (k & K1 & K2); [|reflexivity]. exists k. split; [exact K1|]. apply number_ok; auto. }
  split. { destruct (get "q" specs) as [v|] eqn:G; [|exact I]. apply Hq. apply q_ext. exact G. }
  split. { split; assumption. }
  split. { apply optional_read; [cbn; tauto|]. intros v M. apply (means_t E u S) in M as (k & K1 & K2); [|reflexivity]. exists k. split; [exact K1|]. apply number_ok; auto. }
  split. { apply optional_read; [cbn; tauto|]. intros v M. apply (means_x E u S) in M as (k & K1 & K2); [|reflexivity]. exists k. split; [exact K1|]. apply number_ok; auto. apply (Hx k K1). }
  split. { destruct (u_copied_headers u) as [|(n & v) fs] eqn:Ez.
    - rewrite (table_absent "z"); [reflexivity|]. cbn. rewrite Ez. cbn. tauto.
    - destruct (present "z") as (val & G & M); [cbn; rewrite Ez; cbn; tauto|].
      apply (means_z E u S) in M as (m & w & q & t & gs & t' & Z1 & Z2 & Z3 & Z4 & ->); [|reflexivity].
      rewrite Ez in Z1. injection Z1 as <- <- <-. rewrite G.
      apply (copied_ok' asc fs t' Z4 n v q [] t); auto; [|left; reflexivity]. split; [|exact Hz].
      rewrite <- Ez. apply S. }
  split; [reflexivity|].
  split. { destruct (u_identity u) as [i|] eqn:Ei; destruct i' as [i'|]; try (exfalso; exact Hi'); [|exact I].
    destruct Hi' as (_ & W & _). destruct (su_identity _ _ S i Ei) as (Di & _ & Hd).
    destruct (written_domain _ _ _ _ _ IO Di W) as (_ & Ai & _). right. unfold ascii_subdomain. rewrite Ai, Ad.
    destruct Hd as [Hd|(a & b & A & B & Lab)]; [|exists a, b; auto].
    destruct Di as ((a & A & _) & _). destruct (su_domain _ _ S) as ((b & B & _) & _). exists a, b. split; [exact A|]. split; [exact B|].
    rewrite (io_case _ IO _ _ _ _ Hd A B). apply label_suffix_iff. exists []. auto. }
  destruct (u_timestamp u) as [t|] eqn:Et; [|exact I]. destruct (u_expiration u) as [x|] eqn:Ex; [|exact I].
  apply (Hx x eq_refl). reflexivity.
Qed.

End Reading.

(** ** Every output *)

(** the tags written *)
Lemma output_tags : forall E now r headers body o u pre post sig n b64, idna_ok (env_idna E) ->
  output_of E now r headers body o u pre post sig n b64 ->
  exists tags, Forall (fun p => tag_means (env_idna E) u (of_ascii_only (r_format E r)) b64 (fst p) (snd p)) tags
    /\ NoDup (map fst tags) /\ Permutation (map fst tags) (default_names u)
    /\ map fst tags = tag_names u (r_format E r)
    /\ tag_list_from_str (so_header_value o) = Ok (map (fun p => mkTag (fst p) (snd p)) tags).
Proof.
  intros E now r headers body o u pre post sig n b64 IO H.
  pose proof (oo_sound _ _ _ _ _ _ _ _ _ _ _ _ H) as S.
  pose proof (oo_format _ _ _ _ _ _ _ _ _ _ _ _ H) as F. pose proof (oo_formattable _ _ _ _ _ _ _ _ _ _ _ _ H) as FU.
  pose proof (oo_bytes _ _ _ _ _ _ _ _ _ _ _ _ H) as Hb. pose proof (oo_b64 _ _ _ _ _ _ _ _ _ _ _ _ H) as H64.
  destruct (whole_laid _ u (r_format E r) _ pre post n b64 FU F (oo_parts _ _ _ _ _ _ _ _ _ _ _ _ H)) as (ps & Hps & L).
  pose proof (tag_names_perm u _ F) as HP.
  destruct (tags_laid (env_idna E) u (of_ascii_only (r_format E r)) b64 (of_indentation (r_format E r))
    (proj1 (proj2 F)) (proj1 (proj2 (proj2 F))) (tag_names u (r_format E r)) ps _ Hps L) as (tags & Tn & Tm & Tl).
  { destruct (su_from _ _ S) as (x & X & _). intros Y. rewrite Y in X. destruct X. }
  { intros X. rewrite X in HP. apply Permutation_nil in HP. unfold default_names in HP. cbn in HP. discriminate. }
  { intros m val _ M. eapply means_value; try eassumption. eapply base64_valchar; eassumption. }
  assert (NoDup (map fst tags)) as ND.
  { rewrite Tn. eapply Permutation_NoDup; [symmetry; exact HP|]. eapply default_names_nodup; exact FU. }
  exists tags. split; [exact Tm|]. split; [exact ND|]. split; [rewrite Tn; exact HP|]. split; [exact Tn|].
  rewrite (oo_o _ _ _ _ _ _ _ _ _ _ _ _ H). cbn [so_header_value].
  apply tag_list_ok. unfold pairs_of. rewrite map_map. cbn [tag_name tag_value].
  rewrite (map_ext (fun x : str * str => (fst x, snd x)) (fun x => x)) by (intros []; reflexivity). rewrite map_id. auto.
Qed.

Lemma local_part_nonempty : ~ local_part [].
Proof.
  intros [_ [(atoms & A & B & C)|(q & X & _)]]; [|discriminate X]. destruct atoms as [|a atoms]; [congruence|]. inv B. destruct H1 as [H1 _].
  destruct a; [congruence|]. destruct atoms; discriminate C.
Qed.

(** what may keep an output from being read, apart from names of copied fields *)
Record readable_parts (E : Env) (r : SignRequest E) (now : N) : Prop := mkReadableParts {
  ro_scalar : forall i, r_identity E r = Some i -> Forall is_scalar (id_domain i);
  ro_local : forall i l, r_identity E r = Some i -> id_local_part i = Some l -> l = [] \/ local_part l;
  ro_alg : r_algorithm E r = RsaSha1 -> env_pre E = true;
  ro_q : forall v, In (lit "q", v) (r_ext_tags E r) ->
    exists ms, query_methods_text v ms /\ exists m, In m ms /\ named m "dns/txt";
  ro_time : forall t, time_of E r now = Some t -> t < 2^64 /\ (r_valid_duration E r <> None -> t < 2^64 - 1)
}.

(** an empty local part is written as none *)
Definition norm_identity (i : Identity) : Identity :=
  match id_local_part i with Some [] => mkIdentity None (id_domain i) | _ => i end.
Definition norm (u : USig) : USig :=
  mkUSig (u_algorithm u) (u_body_hash u) (u_canonicalization u) (u_domain u) (u_signed_headers u)
    (option_map norm_identity (u_identity u)) (u_body_length u) (u_selector u) (u_timestamp u) (u_expiration u)
    (u_copied_headers u) (u_ext_tags u).

Lemma norm_domain : forall i, id_domain (norm_identity i) = id_domain i.
Proof. intros [[[|]|] d]; reflexivity. Qed.

Lemma norm_local : forall i, unwrap_or (id_local_part (norm_identity i)) [] = unwrap_or (id_local_part i) [].
Proof. intros [[[|]|] d]; reflexivity. Qed.

Lemma norm_some : forall i l, id_local_part (norm_identity i) = Some l -> id_local_part i = Some l /\ l <> [].
Proof. intros [[[|c p]|] d] l; cbn; intros H; try discriminate H. injection H as <-. split; [reflexivity|discriminate]. Qed.

Lemma norm_sound : forall E u, sound_usig E u -> sound_usig E (norm u).
Proof.
  intros E u S. constructor; try apply S. cbn [u_identity norm]. intros i Hi. destruct (u_identity u) as [j|] eqn:Ej; [|discriminate Hi].
  injection Hi as <-. destruct (su_identity _ _ S j Ej) as (A & B & C). rewrite norm_domain. split; [exact A|]. split; [|exact C].
  intros l Hl. apply norm_some in Hl. apply B. tauto.
Qed.

Lemma norm_means : forall idna u asc b n v, tag_means idna u asc b n v -> tag_means idna (norm u) asc b n v.
Proof.
  intros idna u asc b n v H. destruct H; try (econstructor; eassumption); [exact (tm_a idna (norm u) asc b)|exact (tm_c idna (norm u) asc b)|].
  eapply (tm_i idna (norm u) asc b (norm_identity i)).
  - cbn [norm u_identity]. rewrite H. reflexivity.
  - rewrite norm_domain. assumption.
  - rewrite norm_local. assumption.
Qed.

Lemma norm_names : forall u, default_names (norm u) = default_names u.
Proof. intros u. unfold default_names, tag_table. cbn [norm u_identity u_canonicalization u_body_length u_timestamp u_expiration u_copied_headers u_ext_tags]. destruct (u_identity u); reflexivity. Qed.

(** as [written_signature], without the additional tags *)
Theorem output_reads : forall E now r headers body o u pre post sig n b64 tags, idna_ok (env_idna E) -> crypto_nonempty (env_crypto E) ->
  output_of E now r headers body o u pre post sig n b64 -> readable_parts E r now -> now < 2^64 -> copied_names_safe (so_signature o) ->
  Forall (fun p => tag_means (env_idna E) u (of_ascii_only (r_format E r)) b64 (fst p) (snd p)) tags ->
  NoDup (map fst tags) -> Permutation (map fst tags) (default_names u) ->
  tag_list_from_str (so_header_value o) = Ok (map (fun p => mkTag (fst p) (snd p)) tags) ->
  exists d s i,
    let sig' := mkSig (u_algorithm u) sig (u_body_hash u) (u_canonicalization u) d (u_signed_headers u) i (u_body_length u) s
            (u_timestamp u) (u_expiration u) (u_copied_headers u)
            (ext_tags known_sig_tags (map (fun p => mkTag (fst p) (snd p)) tags)) in
    sig_from_str (env_pre E) (env_idna E) (so_header_value o) = Val (Ok sig')
    /\ written_form (env_idna E) (of_ascii_only (r_format E r)) (u_domain u) d
    /\ written_form (env_idna E) (of_ascii_only (r_format E r)) (u_selector u) s
    /\ match u_identity u, i with
       | None, None => True
       | Some i, Some i' => id_local_part i' = id_local_part (norm_identity i)
                            /\ written_form (env_idna E) (of_ascii_only (r_format E r)) (id_domain i) (id_domain i')
       | _, _ => False
       end.
Proof.
  intros E now r headers body o u pre post sig n b64 tags IO (NE1 & NE2 & NE3) H R Hnow Hcp Tm ND HP TL.
  pose proof (oo_sound _ _ _ _ _ _ _ _ _ _ _ _ H) as S.
  pose proof (oo_bytes _ _ _ _ _ _ _ _ _ _ _ _ H) as Hb. pose proof (oo_b64 _ _ _ _ _ _ _ _ _ _ _ _ H) as H64.
  destruct (oo_u _ _ _ _ _ _ _ _ _ _ _ _ H) as (hashed & len & names & copied & U1 & U2 & U3 & Eu).
  assert (u_ext_tags u = r_ext_tags E r) as Ex by (rewrite Eu; reflexivity).
  apply norm_sound in S. rewrite <- (norm_names u) in HP.
  assert (Forall (fun p => tag_means (env_idna E) (norm u) (of_ascii_only (r_format E r)) b64 (fst p) (snd p)) tags) as Tm'.
  { eapply Forall_impl; [|exact Tm]. intros p. apply norm_means. }
  destruct (read_signature E (norm u) (of_ascii_only (r_format E r)) sig b64 tags IO S Hb H64 Tm' ND HP) as (d & s & i & Wd & Ws & Wi & Sg).
  - pose proof (oo_sign _ _ _ _ _ _ _ _ _ _ _ _ H) as P. destruct (r_signing_key E r); cbn in P; [eapply NE2; exact P|]. injection P as <-. apply NE3.
  - rewrite Eu. apply NE1.
  - rewrite Eu. apply (ro_alg _ _ _ R).
  - apply (oo_length _ _ _ _ _ _ _ _ _ _ _ _ H).
  - rewrite Eu. cbn [norm u_timestamp]. intros t Et. apply (ro_time _ _ _ R t Et).
  - rewrite Eu. cbn [norm u_timestamp u_expiration]. intros x Hx. destruct (r_valid_duration E r) as [dur|] eqn:Ed; [|discriminate].
    assert (dur <> 0) as Dn. { intros ->. destruct (accepted E r (oo_typed _ _ _ _ _ _ _ _ _ _ _ _ H) (oo_checks _ _ _ _ _ _ _ _ _ _ _ _ H)) as (_ & _ & _ & X & _). apply X. exact Ed. }
    injection Hx as <-. split; [lia|]. intros t Et. rewrite Et. destruct (ro_time _ _ _ R t Et) as [_ X].
    rewrite Ed in X. specialize (X ltac:(discriminate)). lia.
  - rewrite Eu. cbn [norm u_identity]. intros j Hj. destruct (r_identity E r) as [k|] eqn:Ek; [|discriminate Hj]. injection Hj as <-. rewrite norm_domain.
    split; [apply (ro_scalar _ _ _ R); exact Ek|]. intros l Hl. apply norm_some in Hl as [Hl Ln].
    destruct (ro_local _ _ _ R k l Ek Hl); [congruence|assumption].
  - unfold copied_names_safe in Hcp. rewrite (oo_o _ _ _ _ _ _ _ _ _ _ _ _ H) in Hcp. exact Hcp.
  - cbn [norm u_ext_tags]. rewrite Ex. apply (ro_q _ _ _ R).
  - exists d, s, i. split; [|split; [exact Wd|]; split; [exact Ws|]; cbn [norm u_identity] in Wi; destruct (u_identity u), i; cbn [option_map] in Wi; rewrite ?norm_domain in Wi; auto]. apply sig_ok_iff. eexists. split; [exact TL|exact Sg].
Qed.

Theorem output_parses : forall E now r headers body o u pre post sig n b64, idna_ok (env_idna E) -> crypto_nonempty (env_crypto E) ->
  output_of E now r headers body o u pre post sig n b64 -> readable_request E r now -> now < 2^64 -> copied_names_safe (so_signature o) ->
  exists sig', sig_from_str (env_pre E) (env_idna E) (so_header_value o) = Val (Ok sig')
    /\ written_signature (env_idna E) (r_format E r) (so_signature o) sig'.
Proof.
  intros E now r headers body o u pre post sig n b64 IO NE H R Hnow Hcp.
  pose proof (oo_sound _ _ _ _ _ _ _ _ _ _ _ _ H) as S.
  destruct (output_tags _ _ _ _ _ _ _ _ _ _ _ _ IO H) as (tags & Tm & ND & HP & Tn & TL).
  destruct (oo_u _ _ _ _ _ _ _ _ _ _ _ _ H) as (hashed & len & names & copied & U1 & U2 & U3 & Eu).
  assert (u_ext_tags u = r_ext_tags E r) as Ex by (rewrite Eu; reflexivity).
  assert (u_identity u = r_identity E r) as Ei by (rewrite Eu; reflexivity). clear U1 U2 U3 Eu.
  assert (~ In (lit "q") (map fst (u_ext_tags u))) as Hq. { rewrite Ex. apply (rr_q _ _ _ R). }
  assert (readable_parts E r now) as R'.
  { constructor; try apply R; [intros i l Hi Hl; right; eapply (rr_local _ _ _ R); eassumption|]. intros v Hv. exfalso. apply (rr_q _ _ _ R). apply in_map_iff. exists (lit "q", v). auto. }
  destruct (output_reads _ _ _ _ _ _ _ _ _ _ _ _ tags IO NE H R' Hnow Hcp Tm ND HP TL) as (d & s & i & P & Wd & Ws & Wi).
  assert (match u_identity u, i with
       | None, None => True
       | Some i, Some i' => id_local_part i' = id_local_part i
                            /\ written_form (env_idna E) (of_ascii_only (r_format E r)) (id_domain i) (id_domain i')
       | _, _ => False
       end) as Wi'.
  { destruct (u_identity u) as [j|] eqn:Ej; destruct i; try exact Wi. destruct Wi as [Wi Wi2]. split; [|exact Wi2]. rewrite Wi.
    unfold norm_identity. destruct (id_local_part j) as [l|] eqn:El; [|exact El]. destruct l as [|c l]; [|exact El].
    exfalso. pose proof (rr_local _ _ _ R j [] (eq_sym Ei) El) as X. revert X. apply local_part_nonempty. }
  eexists. split; [exact P|]. rewrite (oo_o _ _ _ _ _ _ _ _ _ _ _ _ H). cbn [so_signature].
  unfold written_signature. cbn [s_algorithm s_signature_data s_body_hash s_canonicalization s_domain s_signed_headers s_identity
    s_body_length s_selector s_timestamp s_expiration s_copied_headers s_ext_tags].
  repeat (split; [first [reflexivity|assumption]|]). split.
  - apply NoDup_Permutation.
    + eapply NoDup_map_inv. apply (ext_nodup tags ND).
    + eapply NoDup_map_inv. apply S.
    + intros (m & v). apply (ext_in E u (of_ascii_only (r_format E r)) b64 tags S Tm ND HP Hq).
  - intros Ho. apply (ext_same E u (of_ascii_only (r_format E r)) b64 tags S Tm ND HP Hq). rewrite Tn. unfold tag_names. rewrite Ho. reflexivity.
Qed.
