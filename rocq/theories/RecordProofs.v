(** Proofs about key records. *)

From Coq Require Import String List Permutation.
From Verif Require Import Base Utf8 Canon BodyHash QP TagList Signature KeyRecord Lib
  SpecText SpecTag SpecSig SpecRecord SpecCanon Utf8Proofs QPProofs QPDecode Base64Proofs TagListProofs SigProofs.

(** ** Lenient UTF-8 *)

Definition second3 (b1 b2 : N) : bool :=
  (b1 =? 0xE0) && in_range 0xA0 0xBF b2 || in_range 0xE1 0xEC b1 && is_cont b2
  || (b1 =? 0xED) && in_range 0x80 0x9F b2 || in_range 0xEE 0xEF b1 && is_cont b2.
Definition second4 (b1 b2 : N) : bool :=
  (b1 =? 0xF0) && in_range 0x90 0xBF b2 || in_range 0xF1 0xF3 b1 && is_cont b2
  || (b1 =? 0xF4) && in_range 0x80 0x8F b2.

Lemma begins_prefix : forall p q, begins_char (p ++ q) -> begins_char p.
Proof.
  intros p q (c & x & H1 & H2 & H3). exists c, (q ++ x). split; [exact H1|]. split; [destruct q; [exact H2|discriminate]|].
  rewrite H3, app_assoc. reflexivity.
Qed.

Lemma begins2_3 : forall b1 b2, second3 b1 b2 = true -> begins_char [b1; b2].
Proof.
  intros b1 b2 H. assert (ok3 b1 b2 128 = true) as X by (unfold second3, ok3, is_cont, in_range in *; lia).
  apply utf8_char_3 in X. destruct X as [X1 X2]. eexists. exists [128]. split; [exact X2|]. split; [discriminate|exact X1].
Qed.
Lemma begins2_4 : forall b1 b2, second4 b1 b2 = true -> begins_char [b1; b2].
Proof.
  intros b1 b2 H. assert (ok4 b1 b2 128 128 = true) as X by (unfold second4, ok4, is_cont, in_range in *; lia).
  apply utf8_char_4 in X. destruct X as [X1 X2]. eexists. exists [128; 128]. split; [exact X2|]. split; [discriminate|exact X1].
Qed.
Lemma begins3 : forall b1 b2 b3, second4 b1 b2 = true -> is_cont b3 = true -> begins_char [b1; b2; b3].
Proof.
  intros b1 b2 b3 H H3. assert (ok4 b1 b2 b3 128 = true) as X by (unfold second4, ok4, is_cont, in_range in *; lia).
  apply utf8_char_4 in X. destruct X as [X1 X2]. eexists. exists [128]. split; [exact X2|]. split; [discriminate|exact X1].
Qed.

Lemma begins2_inv : forall b1 b2, begins_char [b1; b2] -> second3 b1 b2 = true \/ second4 b1 b2 = true.
Proof.
  intros b1 b2 (c & x & H1 & H2 & H3). unfold is_scalar in H1. unfold utf8_char in H3.
  destruct (c <? 128) eqn:E1; [discriminate|]. destruct (c <? 2048) eqn:E2.
  { injection H3 as _ _ <-. congruence. }
  destruct (c <? 65536) eqn:E3.
  - injection H3 as <- <- <-. left. unfold second3, is_cont, in_range. lia.
  - injection H3 as <- <- <-. right. unfold second4, is_cont, in_range. lia.
Qed.
Lemma begins3_inv : forall b1 b2 b3, begins_char [b1; b2; b3] -> second4 b1 b2 = true /\ is_cont b3 = true.
Proof.
  intros b1 b2 b3 (c & x & H1 & H2 & H3). unfold is_scalar in H1. unfold utf8_char in H3.
  destruct (c <? 128) eqn:E1; [discriminate|]. destruct (c <? 2048) eqn:E2; [discriminate|].
  destruct (c <? 65536) eqn:E3.
  - injection H3 as _ _ _ <-. congruence.
  - injection H3 as <- <- <- <-. unfold second4, is_cont, in_range. split; lia.
Qed.
Lemma begins4_inv : forall b1 b2 b3 b4, ~ begins_char [b1; b2; b3; b4].
Proof.
  intros b1 b2 b3 b4 (c & x & H1 & H2 & H3). unfold utf8_char in H3.
  repeat match type of H3 with context [if ?b then _ else _] => destruct b end; try discriminate.
  injection H3 as _ _ _ _ <-. congruence.
Qed.

Lemma invalid_len_spec : forall r, r <> [] -> exists bad bs, r = bad ++ bs /\ bs = skipn (invalid_len r) r /\ bad <> []
  /\ (begins_char bad \/ exists b, bad = [b])
  /\ (forall p q, bs = p ++ q -> p <> [] -> ~ begins_char (bad ++ p)).
Proof.
  intros r Hr.
  assert (forall bad bs, (forall b q, bs = b :: q -> ~ begins_char (bad ++ [b])) ->
            forall p q, bs = p ++ q -> p <> [] -> ~ begins_char (bad ++ p)) as ONE.
  { intros bad bs H p q E Hp Hb. destruct p as [|b p]; [congruence|]. apply (H b (p ++ q) E).
    apply (begins_prefix (bad ++ [b]) p). rewrite <- app_assoc. exact Hb. }
  destruct r as [|b1 r]; [congruence|]. destruct r as [|b2 r].
  { exists [b1], []. split; [reflexivity|]. split; [reflexivity|]. split; [discriminate|]. split; [eauto|].
    apply ONE. discriminate. }
  unfold invalid_len. fold (second3 b1 b2) (second4 b1 b2). destruct (second3 b1 b2) eqn:S3.
  { exists [b1; b2], r. split; [reflexivity|]. split; [reflexivity|]. split; [discriminate|].
    split; [left; apply begins2_3; exact S3|]. apply ONE. intros b q _ H. apply begins3_inv in H.
    destruct H as [H _]. unfold second3, second4, in_range, is_cont in *. lia. }
  destruct (second4 b1 b2) eqn:S4.
  - destruct r as [|b3 r].
    + exists [b1; b2], []. split; [reflexivity|]. split; [reflexivity|]. split; [discriminate|].
      split; [left; apply begins2_4; exact S4|]. apply ONE. discriminate.
    + destruct (is_cont b3) eqn:C3.
      * exists [b1; b2; b3], r. split; [reflexivity|]. split; [reflexivity|]. split; [discriminate|].
        split; [left; apply begins3; assumption|]. apply ONE. intros b q _. apply begins4_inv.
      * exists [b1; b2], (b3 :: r). split; [reflexivity|]. split; [reflexivity|]. split; [discriminate|].
        split; [left; apply begins2_4; exact S4|]. apply ONE. intros b q [= -> _] H. apply begins3_inv in H.
        destruct H. congruence.
  - exists [b1], (b2 :: r). split; [reflexivity|]. split; [reflexivity|]. split; [discriminate|]. split; [eauto|].
    apply ONE. intros b q [= -> _] H. apply begins2_inv in H. destruct H; congruence.
Qed.

Lemma lossy_chars : forall s bs t, Forall is_scalar s -> lossy_text bs t -> lossy_text (as_bytes s ++ bs) (s ++ t).
Proof.
  induction s as [|c s IH]; intros bs t H Ht; [exact Ht|]. inv H. rewrite as_bytes_cons, <- app_assoc.
  cbn [app]. apply lo_char; [assumption|]. apply IH; assumption.
Qed.

Lemma lossy_loop_spec : forall fuel bs, (length bs < fuel)%nat -> lossy_text bs (lossy_loop fuel bs).
Proof.
  induction fuel as [|fuel IH]; intros bs L; [lia|]. cbn [lossy_loop].
  destruct (utf8_prefix bs) as [s r] eqn:E. apply utf8_prefix_spec in E. destruct E as (E1 & E2 & E3).
  subst bs. apply lossy_chars; [assumption|]. destruct r as [|b r]; [constructor|].
  destruct (invalid_len_spec (b :: r)) as (bad & bs & F1 & F2 & F3 & F4 & F5); [discriminate|].
  rewrite <- F2. rewrite F1 in *. apply lo_bad; auto. apply IH.
  rewrite !app_length in L. destruct bad; [congruence|]. simpl in L. lia.
Qed.

Lemma app_cases : forall (a b c d : list N), a ++ b = c ++ d ->
  (exists x, c = a ++ x /\ b = x ++ d) \/ (exists x, a = c ++ x /\ d = x ++ b).
Proof.
  induction a as [|x a IH]; intros b c d H.
  - left. exists c. auto.
  - destruct c as [|y c]; [right; exists (x :: a); auto|]. injection H as -> H.
    apply IH in H. destruct H as [(z & -> & ->)|(z & -> & ->)]; [left|right]; exists z; auto.
Qed.

Lemma lossy_det : forall bs s, lossy_text bs s -> forall s', lossy_text bs s' -> s' = s.
Proof.
  intros bs s H. induction H as [|c bs s Hc H IH|bad bs s N0 Hn Hb Hm H IH]; intros s' H'.
  - inversion H' as [|c bs s0 Hc H1 E|bad bs s0 N0 Hn Hb Hm H1 E]; [reflexivity|..].
    + destruct (utf8_char c) eqn:X; [|discriminate]. exfalso. exact (utf8_char_nonempty c X).
    + destruct bad; [congruence|discriminate].
  - inversion H' as [E|c' bs' s0 Hc' H1 E|bad' bs' s0 N0' Hn' Hb' Hm' H1 E].
    + symmetry in E. apply app_eq_nil in E. destruct E as [E _]. exfalso. exact (utf8_char_nonempty c E).
    + subst. assert (c' = c /\ bs' = bs) as [-> ->].
      { pose proof (utf8_prefix_char c bs Hc) as P1. pose proof (utf8_prefix_char c' bs' Hc') as P2.
        rewrite E in P2. rewrite P1 in P2. destruct (utf8_prefix bs), (utf8_prefix bs').
        injection P2 as -> _ _. split; [reflexivity|]. eapply app_inv_head. exact E. }
      f_equal. apply IH. exact H1.
    + exfalso. subst. apply (N0' c bs Hc). exact E.
  - inversion H' as [E|c' bs' s0 Hc' H1 E|bad' bs' s0 N0' Hn' Hb' Hm' H1 E].
    + symmetry in E. apply app_eq_nil in E. destruct E as [E _]. congruence.
    + exfalso. subst. apply (N0 c' bs' Hc'). symmetry. exact E.
    + subst. assert (bad' = bad /\ bs' = bs) as [-> ->].
      { apply app_cases in E. destruct E as [(x & -> & ->)|(x & -> & ->)]; destruct x as [|b x].
        - rewrite app_nil_r. auto.
        - exfalso. destruct Hb as [Hb|(b0 & Hb)].
          + apply (Hm' (b :: x) bs eq_refl); [discriminate|exact Hb].
          + destruct bad' as [|b1 bad']; [congruence|]. injection Hb as _ Hb. destruct bad'; discriminate.
        - rewrite app_nil_r. auto.
        - exfalso. destruct Hb' as [Hb'|(b0 & Hb')].
          + apply (Hm (b :: x) bs' eq_refl); [discriminate|exact Hb'].
          + destruct bad as [|b1 bad]; [congruence|]. injection Hb' as _ Hb'. destruct bad; discriminate. }
      f_equal. apply IH. exact H1.
Qed.

Lemma lossy_spec : forall bs s, from_utf8_lossy bs = s <-> lossy_text bs s.
Proof.
  intros bs s. assert (lossy_text bs (from_utf8_lossy bs)) as H by (apply lossy_loop_spec; lia). split.
  - intros <-. exact H.
  - intros H'. symmetry. eapply lossy_det; eassumption.
Qed.

(** ** Lists of names *)

Section Names.
Context {A : Type}.
Variable f : str -> option A.
Variable err : KeyRecordError.

Fixpoint gparse (ss : list str) : result (list A) KeyRecordError :=
  match ss with
  | [] => Ok []
  | s :: ss' =>
      if is_nil s then Err err
      else match gparse ss' with
           | Err e => Err e
           | Ok l => Ok (match f s with Some a => a :: l | None => l end)
           end
  end.

Variable R : str -> option A -> Prop.
Hypothesis fR : forall s o, f s = o <-> R s o.

Lemma gparse_spec : forall ss,
  match gparse ss with
  | Ok l => ~ In [] ss /\ forall l', recognised R ss l' <-> l' = l
  | Err e => In [] ss /\ e = err
  end.
Proof.
  induction ss as [|s ss IH]; cbn [gparse].
  - split; [intros []|]. intros l'. split; [intros H; inv H; reflexivity|intros ->; constructor].
  - destruct s as [|c s]; cbn [is_nil]; [split; [left|]; reflexivity|].
    set (s0 := c :: s). destruct (gparse ss) as [l|e].
    + destruct IH as [I1 I2]. split; [intros [H|H]; [discriminate|auto]|].
      intros l'. split.
      * intros H. inversion H as [|s1 a ss1 l1 Ha Hl|s1 ss1 l1 Ha Hl]; subst.
        { apply fR in Ha. rewrite Ha. f_equal. apply I2. assumption. }
        { apply fR in Ha. rewrite Ha. apply I2. assumption. }
      * intros ->. pose proof (proj1 (fR s0 _) eq_refl) as Hs. destruct (f s0) as [a|].
        { apply rc_some; [exact Hs|apply I2; reflexivity]. }
        { apply rc_none; [exact Hs|apply I2; reflexivity]. }
    + destruct IH as [I1 I2]. split; [right; exact I1|exact I2].
Qed.

Lemma gparse_ok : forall t l, t = [] \/ tag_value_text t ->
  (gparse (parse_colon_separated_value t) = Ok l <-> names_text R t l).
Proof.
  intros t l Ht. pose proof (gparse_spec (parse_colon_separated_value t)) as S.
  assert (colon_list t (parse_colon_separated_value t)) as C by (apply colon_separated_spec; auto).
  unfold names_text, items_text. split.
  - intros E. rewrite E in S. destruct S as [S1 S2]. exists (parse_colon_separated_value t).
    split; [auto|]. apply S2. reflexivity.
  - intros (items & [H1 H2] & H3). rewrite (colon_list_det _ _ _ Ht H1 C) in *.
    destruct (gparse (parse_colon_separated_value t)) as [l'|e].
    + destruct S as [_ S]. apply S in H3. congruence.
    + destruct S as [S _]. contradiction.
Qed.

Lemma gparse_err : forall t e, t = [] \/ tag_value_text t ->
  (gparse (parse_colon_separated_value t) = Err e <-> (forall items, ~ items_text t items) /\ e = err).
Proof.
  intros t e Ht. pose proof (gparse_spec (parse_colon_separated_value t)) as S.
  assert (colon_list t (parse_colon_separated_value t)) as C by (apply colon_separated_spec; auto).
  unfold items_text. split.
  - intros E. rewrite E in S. destruct S as [S1 S2]. split; [|exact S2].
    intros items [H1 H2]. rewrite (colon_list_det _ _ _ Ht H1 C) in *. contradiction.
  - intros [H ->]. destruct (gparse (parse_colon_separated_value t)) as [l'|e'].
    + exfalso. destruct S as [S _]. exact (H _ (conj C S)).
    + destruct S as [_ ->]. reflexivity.
Qed.
End Names.

Definition hash_of_name (pre : bool) (s : str) : option HashAlg :=
  if eq_ignore_ascii_case s (lit "sha256") then Some Sha256
  else if pre && eq_ignore_ascii_case s (lit "sha1") then Some Sha1 else None.
Definition service_of_name (s : str) : option ServiceType :=
  if leqb s (lit "*") then Some SvcAny
  else if eq_ignore_ascii_case s (lit "email") then Some SvcEmail else None.
Definition flag_of_name (s : str) : option SelectorFlag :=
  if eq_ignore_ascii_case s (lit "y") then Some Testing
  else if eq_ignore_ascii_case s (lit "s") then Some NoSubdomains else None.

Lemma hash_algs_gparse : forall pre ss, parse_hash_algs pre ss = gparse (hash_of_name pre) InvalidHashAlgorithm ss.
Proof.
  induction ss as [|s ss IH]; cbn [parse_hash_algs gparse]; [reflexivity|]. rewrite IH. unfold hash_of_name.
  repeat dmatch; reflexivity.
Qed.
Lemma services_gparse : forall ss, parse_service_types ss = gparse service_of_name InvalidServiceType ss.
Proof.
  induction ss as [|s ss IH]; cbn [parse_service_types gparse]; [reflexivity|]. rewrite IH. unfold service_of_name.
  repeat dmatch; reflexivity.
Qed.
Lemma flags_gparse : forall ss, parse_flags ss = gparse flag_of_name InvalidFlag ss.
Proof.
  induction ss as [|s ss IH]; cbn [parse_flags gparse]; [reflexivity|]. rewrite IH. unfold flag_of_name.
  repeat dmatch; reflexivity.
Qed.

Lemma hash_of_name_spec : forall pre s o, hash_of_name pre s = o <-> hash_name pre s o.
Proof.
  intros pre s o. unfold hash_of_name.
  destruct (eq_ignore_ascii_case s (lit "sha256")) eqn:E1; eqics.
  { split; [intros <-; constructor; auto|]. intros H. inv H; try reflexivity; named_clash. }
  destruct (eq_ignore_ascii_case s (lit "sha1")) eqn:E2; eqics.
  - destruct pre; cbn [andb].
    + split; [intros <-; apply hn_sha1; auto|]. intros H. inv H; try reflexivity; try named_clash; discriminate.
    + split; [intros <-; apply hn_sha1_not; auto|]. intros H. inv H; try reflexivity; try named_clash; discriminate.
  - rewrite andb_false_r. split; [intros <-; apply hn_unknown; auto|]. intros H. inv H; try reflexivity; named_clash.
Qed.

Lemma service_of_name_spec : forall s o, service_of_name s = o <-> service_name s o.
Proof.
  intros s o. unfold service_of_name. destruct (leqb s (lit "*")) eqn:E1.
  { apply leqb_eq in E1. subst s. split; [intros <-; constructor; auto|]. intros H. inv H; try reflexivity; try congruence.
    discriminate. }
  apply leqb_neq in E1.
  destruct (eq_ignore_ascii_case s (lit "email")) eqn:E2; eqics.
  { split; [intros <-; constructor; auto|]. intros H. inv H; try reflexivity; [congruence|contradiction]. }
  split; [intros <-; apply sn_unknown; auto|]. intros H. inv H; try reflexivity; [congruence|contradiction].
Qed.

Lemma flag_of_name_spec : forall s o, flag_of_name s = o <-> flag_name s o.
Proof.
  intros s o. unfold flag_of_name.
  destruct (eq_ignore_ascii_case s (lit "y")) eqn:E1; eqics.
  { split; [intros <-; constructor; auto|]. intros H. inv H; try reflexivity; named_clash. }
  destruct (eq_ignore_ascii_case s (lit "s")) eqn:E2; eqics.
  { split; [intros <-; constructor; auto|]. intros H. inv H; try reflexivity; named_clash. }
  split; [intros <-; apply fn_unknown; auto|]. intros H. inv H; try reflexivity; named_clash.
Qed.

Lemma key_type_spec : forall t k,
  (if eq_ignore_ascii_case t (lit "rsa") then Some Rsa
   else if eq_ignore_ascii_case t (lit "ed25519") then Some Ed25519 else None) = Some k <-> key_type_name t k.
Proof.
  intros t k.
  destruct (eq_ignore_ascii_case t (lit "rsa")) eqn:E1; eqics.
  { split; [intros [= <-]; constructor; auto|]. intros H. inv H; try reflexivity; named_clash. }
  destruct (eq_ignore_ascii_case t (lit "ed25519")) eqn:E2; eqics.
  { split; [intros [= <-]; constructor; auto|]. intros H. inv H; try reflexivity; named_clash. }
  split; [discriminate|]. intros H. inv H; named_clash.
Qed.

Lemma hash_names_spec : forall pre t l, t = [] \/ tag_value_text t ->
  (parse_hash_algs pre (parse_colon_separated_value t) = Ok l <-> names_text (hash_name pre) t l).
Proof. intros. rewrite hash_algs_gparse. apply gparse_ok; [apply hash_of_name_spec|assumption]. Qed.
Lemma hash_names_err : forall pre t e, t = [] \/ tag_value_text t ->
  (parse_hash_algs pre (parse_colon_separated_value t) = Err e <->
   (forall items, ~ items_text t items) /\ e = InvalidHashAlgorithm).
Proof. intros. rewrite hash_algs_gparse. apply (gparse_err _ _ (hash_name pre)); [apply hash_of_name_spec|assumption]. Qed.
Lemma service_names_spec : forall t l, t = [] \/ tag_value_text t ->
  (parse_service_types (parse_colon_separated_value t) = Ok l <-> names_text service_name t l).
Proof. intros. rewrite services_gparse. apply gparse_ok; [apply service_of_name_spec|assumption]. Qed.
Lemma service_names_err : forall t e, t = [] \/ tag_value_text t ->
  (parse_service_types (parse_colon_separated_value t) = Err e <->
   (forall items, ~ items_text t items) /\ e = InvalidServiceType).
Proof. intros. rewrite services_gparse. apply (gparse_err _ _ service_name); [apply service_of_name_spec|assumption]. Qed.
Lemma flag_names_spec : forall t l, t = [] \/ tag_value_text t ->
  (parse_flags (parse_colon_separated_value t) = Ok l <-> names_text flag_name t l).
Proof. intros. rewrite flags_gparse. apply gparse_ok; [apply flag_of_name_spec|assumption]. Qed.
Lemma flag_names_err : forall t e, t = [] \/ tag_value_text t ->
  (parse_flags (parse_colon_separated_value t) = Err e <->
   (forall items, ~ items_text t items) /\ e = InvalidFlag).
Proof. intros. rewrite flags_gparse. apply (gparse_err _ _ flag_name); [apply flag_of_name_spec|assumption]. Qed.

Lemma names_items : forall A (R : str -> option A -> Prop) t l, names_text R t l -> exists items, items_text t items.
Proof. intros A R t l (items & H & _). eauto. Qed.

(** ** One tag *)

Definition set_key_tag (pre : bool) (first : bool) (p : PRec) (n : string) (t : str) (p' : PRec) : Prop :=
  let '(mkPRec h k nt kd st fl e) := p in
  match n with
  | "v" => (first = true /\ t = lit "DKIM1") /\ p' = p
  | "h" => exists v, (names_text (hash_name pre) t v /\ v <> []) /\ p' = mkPRec (Some v) k nt kd st fl e
  | "k" => exists v, key_type_name t v /\ p' = mkPRec h (Some v) nt kd st fl e
  | "n" => exists v, notes_text t v /\ p' = mkPRec h k (Some v) kd st fl e
  | "p" => exists v, base64_text t v /\ p' = mkPRec h k nt (Some v) st fl e
  | "s" => exists v, (names_text service_name t v /\ v <> []) /\ p' = mkPRec h k nt kd (Some v) fl e
  | "t" => exists v, names_text flag_name t v /\ p' = mkPRec h k nt kd st (Some v) e
  | _ => False
  end%string.

Definition kts : list string := ["v"; "h"; "k"; "n"; "p"; "s"; "t"]%string.

Lemma rec_tag_known : forall pre i p n v, In n kts -> v = [] \/ tag_value_text v ->
  decides (rec_tag pre i p (mkTag (lit n) v)) (set_key_tag pre (Nat.eqb i 0) p n v)
    (key_tag_error pre n (Nat.eqb i 0) v).
Proof.
  intros pre i [h k nt kd st fl e] n v Hn Hv. unfold rec_tag. cbn [tag_name tag_value].
  unfold kts in Hn.
  repeat (destruct Hn as [<-|Hn]; [lits; unfold set_key_tag; cbv beta iota zeta|]); [..|destruct Hn].
  - (* v *) destruct (Nat.eqb i 0); cbn [negb].
    + destruct (leqb v (lit "DKIM1")) eqn:E; cbn [negb decides].
      * apply leqb_eq in E. subst. split; [intros a'; split; [intros [_ ->]|intros ->]; auto|].
        intros er H. inv H. congruence.
      * apply leqb_neq in E. split; [|intros a' [[_ ?] _]; auto].
        intros er. split; [intros H; inv H; reflexivity|intros ->; constructor; exact E].
    + cbn [decides]. split; [|intros a' [[? _] _]; discriminate].
      intros er. split; [intros H; inv H; reflexivity|intros ->; constructor].
  - (* h *) pose proof (fun l => hash_names_spec pre v l Hv) as S. pose proof (fun l => hash_names_err pre v l Hv) as S'.
    destruct (parse_hash_algs pre (parse_colon_separated_value v)) as [l|er0]; cbn [decides].
    + pose proof (proj1 (S l) eq_refl) as Hl. destruct l as [|a0 l]; cbn [is_nil decides].
      * split; [|intros a' (v' & (H1 & H2) & _); apply S in H1; congruence].
        intros er. split; [intros H; inv H; [|reflexivity]|intros ->; constructor; exact Hl].
        exfalso. destruct (names_items _ _ _ _ Hl) as (it & Hi). eapply H0; eassumption.
      * split.
        { intros a'. split; [|intros ->; eexists; split; [split; [eassumption|discriminate]|reflexivity]].
          intros (v' & (H1 & _) & ->). apply S in H1. congruence. }
        { intros er H. inv H.
          - destruct (names_items _ _ _ _ Hl) as (it & Hi). eapply H0; eassumption.
          - apply S in H0. discriminate. }
    + destruct (proj1 (S' er0) eq_refl) as [S1 ->].
      split; [|intros a' (v' & (H1 & _) & _); apply S in H1; discriminate].
      intros er. split; [intros H; inv H; [reflexivity|apply S in H0; discriminate]|intros ->; constructor; exact S1].
  - (* k *) pose proof (key_type_spec v) as S.
    replace (if eq_ignore_ascii_case v (lit "rsa") then _ else _) with
      (match (if eq_ignore_ascii_case v (lit "rsa") then Some Rsa
              else if eq_ignore_ascii_case v (lit "ed25519") then Some Ed25519 else None) with
       | Some w => Ok (mkPRec h (Some w) nt kd st fl e)
       | None => Err UnsupportedKeyType
       end) by (repeat dmatch; reflexivity).
    apply decides_option; [exact S|].
    intros er. split; [intros H; inv H; auto|intros [-> H]; constructor; exact H].
  - (* n *) unfold parse_qp_section_value. destruct (qp_section_spec v) as (r & -> & S). cbn [bind].
    destruct r as [bs|]; cbn [decides].
    + pose proof (proj1 (S bs) eq_refl) as Hb. split.
      * intros a'. split.
        { intros (w & (bs' & H1 & H2) & ->). apply S in H1. injection H1 as <-. apply lossy_spec in H2. rewrite H2. reflexivity. }
        { intros ->. eexists. split; [|reflexivity]. exists bs. split; [exact Hb|]. apply lossy_spec. reflexivity. }
      * intros er H. inv H. eapply H0; eassumption.
    + split; [|intros a' (w & (bs' & H1 & H2) & ->); apply S in H1; discriminate].
      intros er. split; [intros H; inv H; reflexivity|intros ->; constructor].
      intros bs Hb. apply S in Hb. discriminate.
  - (* p *) apply decides_option; [apply base64_text_spec|].
    intros er. split; [intros H; inv H; auto|intros [-> H]; constructor; exact H].
  - (* s *) pose proof (fun l => service_names_spec v l Hv) as S. pose proof (fun l => service_names_err v l Hv) as S'.
    destruct (parse_service_types (parse_colon_separated_value v)) as [l|er0]; cbn [decides].
    + pose proof (proj1 (S l) eq_refl) as Hl. destruct l as [|a0 l]; cbn [is_nil decides].
      * split; [|intros a' (v' & (H1 & H2) & _); apply S in H1; congruence].
        intros er. split; [intros H; inv H; [|reflexivity]|intros ->; constructor; exact Hl].
        exfalso. destruct (names_items _ _ _ _ Hl) as (it & Hi). eapply H0; eassumption.
      * split.
        { intros a'. split; [|intros ->; eexists; split; [split; [eassumption|discriminate]|reflexivity]].
          intros (v' & (H1 & _) & ->). apply S in H1. congruence. }
        { intros er H. inv H.
          - destruct (names_items _ _ _ _ Hl) as (it & Hi). eapply H0; eassumption.
          - apply S in H0. discriminate. }
    + destruct (proj1 (S' er0) eq_refl) as [S1 ->].
      split; [|intros a' (v' & (H1 & _) & _); apply S in H1; discriminate].
      intros er. split; [intros H; inv H; [reflexivity|apply S in H0; discriminate]|intros ->; constructor; exact S1].
  - (* t *) pose proof (fun l => flag_names_spec v l Hv) as S. pose proof (fun l => flag_names_err v l Hv) as S'.
    destruct (parse_flags (parse_colon_separated_value v)) as [l|er0]; cbn [decides].
    + pose proof (proj1 (S l) eq_refl) as Hl. split.
      * intros a'. split; [|intros ->; eauto]. intros (v' & H1 & ->). apply S in H1. congruence.
      * intros er H. inv H. destruct (names_items _ _ _ _ Hl) as (it & Hi). eapply H0; eassumption.
    + destruct (proj1 (S' er0) eq_refl) as [S1 ->].
      split; [|intros a' (v' & H1 & _); apply S in H1; discriminate].
      intros er. split; [intros H; inv H; reflexivity|intros ->; constructor; exact S1].
Qed.

(** ** All tags *)

Definition version_ok (first : bool) (tags : list TagSpec) : Prop :=
  forall before t after, tags = before ++ t :: after -> tag_name t = lit "v" ->
    (first = true /\ before = []) /\ tag_value t = lit "DKIM1".

Definition kreads (pre first : bool) (p : PRec) (tags : list TagSpec) (p' : PRec) : Prop :=
  version_ok first tags
  /\ upd "h" (fun t v => names_text (hash_name pre) t v /\ v <> []) tags (pr_hash_algorithms p) (pr_hash_algorithms p')
  /\ upd "k" key_type_name tags (pr_key_type p) (pr_key_type p')
  /\ upd "n" notes_text tags (pr_notes p) (pr_notes p')
  /\ upd "p" base64_text tags (pr_key_data p) (pr_key_data p')
  /\ upd "s" (fun t v => names_text service_name t v /\ v <> []) tags (pr_service_types p) (pr_service_types p')
  /\ upd "t" (names_text flag_name) tags (pr_flags p) (pr_flags p')
  /\ pr_ext_tags p' = pr_ext_tags p ++ ext_tags known_key_tags tags.

Ltac rfields :=
  cbn [pr_hash_algorithms pr_key_type pr_notes pr_key_data pr_service_types pr_flags pr_ext_tags].

Lemma version_other : forall first t ts, tag_name t <> lit "v" ->
  (version_ok first (t :: ts) <-> version_ok false ts).
Proof.
  intros first t ts Ht. unfold version_ok. split.
  - intros H before u after E Hu. destruct (H (t :: before) u after) as [[_ X] _]; [rewrite E; reflexivity|exact Hu|].
    discriminate.
  - intros H before u after E Hu. destruct before as [|b before]; injection E as -> E.
    + contradiction.
    + destruct (H before u after E Hu) as [[X _] _]. discriminate.
Qed.

Lemma version_head : forall first v ts, ~ In (lit "v") (map tag_name ts) ->
  (version_ok first (mkTag (lit "v") v :: ts) <-> (first = true /\ v = lit "DKIM1") /\ version_ok false ts).
Proof.
  intros first v ts Hn. unfold version_ok. split.
  - intros H. split.
    + destruct (H [] (mkTag (lit "v") v) ts eq_refl eq_refl) as [[X1 _] X2]. auto.
    + intros before u after E Hu. exfalso. apply Hn. rewrite E, map_app. apply in_or_app. right. left. exact Hu.
  - intros [[H1 H2] H] before u after E Hu. destruct before as [|b before]; injection E as <- E.
    + auto.
    + exfalso. apply Hn. rewrite E, map_app. apply in_or_app. right. left. exact Hu.
Qed.

Lemma kreads_nil : forall pre first p p', kreads pre first p [] p' <-> p' = p.
Proof.
  intros. unfold kreads, upd. cbn [get tag_get ext_tags]. rewrite app_nil_r. split.
  - destruct p, p'. cbn. intros H. decompose [and] H. congruence.
  - intros ->. split; [|repeat split]. intros before t after E. destruct before; discriminate.
Qed.

Lemma known_key_cases : forall n, mem_str n known_key_tags = true -> exists name, n = lit name /\ In name kts.
Proof.
  intros n H. apply mem_str_In in H. unfold known_key_tags in H. apply in_map_iff in H.
  destruct H as (name & <- & H). eauto.
Qed.

Lemma kreads_other : forall pre first p t ts p', mem_str (tag_name t) known_key_tags = false ->
  (kreads pre first p (t :: ts) p' <->
   kreads pre false (let '(mkPRec h k n kd st fl e) := p in
      mkPRec h k n kd st fl (e ++ [(tag_name t, tag_value t)])) ts p').
Proof.
  intros pre first p t ts p' H.
  assert (forall n, mem_str (lit n) known_key_tags = true -> leqb (tag_name t) (lit n) = false) as N.
  { intros n Hn. apply leqb_neq. intros E. rewrite E in H. congruence. }
  unfold kreads. rewrite !upd_other by (apply N; reflexivity).
  rewrite version_other by (apply leqb_neq; apply N; reflexivity).
  destruct p as [h k n kd st fl e]. rfields.
  cbn [ext_tags]. rewrite H. rewrite <- app_assoc. reflexivity.
Qed.

Ltac klits :=
  repeat match goal with
  | |- context [mem_str (lit ?a) known_key_tags] =>
      let x := eval vm_compute in (mem_str (lit a) known_key_tags) in
      change (mem_str (lit a) known_key_tags) with x
  end; cbv iota.

Lemma kreads_known : forall pre first p n v ts p', In n kts -> ~ In (lit n) (map tag_name ts) ->
  (kreads pre first p (mkTag (lit n) v :: ts) p' <->
   exists p1, set_key_tag pre first p n v p1 /\ kreads pre false p1 ts p').
Proof.
  intros pre first [h k nt kd st fl e] n v ts p' Hn Hin. unfold kts in Hn.
  pose proof (tag_get_none (lit n) ts Hin : get n ts = None) as Hg.
  repeat (destruct Hn as [<-|Hn]; [unfold set_key_tag; cbv beta iota zeta|]); [..|destruct Hn];
  unfold kreads; rfields;
  rewrite ?upd_other by reflexivity; rewrite ?upd_same by exact Hg;
  cbn [ext_tags tag_name tag_value]; klits.
  - rewrite version_head by exact Hin. split.
    + intros ((Hv & H1) & H2). eexists. split; [split; [exact Hv|reflexivity]|]. rfields. split; [exact H1|exact H2].
    + intros (p1 & (Hv & ->) & H1 & H2). rfields. split; [split; [exact Hv|exact H1]|exact H2].
  - rewrite version_other by discriminate. split.
    + intros (H1 & H2 & H3 & H4 & H5 & H6 & H7 & H8). destruct H2 as (w & HR & HU).
      eexists; split; [exists w; split; [exact HR|reflexivity]|]; rfields; repeat (split; [assumption|]); assumption.
    + intros (p1 & (w & HR & ->) & H1 & H2 & H3 & H4 & H5 & H6 & H7 & H8).
      cbn [pr_hash_algorithms pr_key_type pr_notes pr_key_data pr_service_types pr_flags pr_ext_tags] in *.
      repeat (split; [first [assumption|eexists; split; eassumption]|]); assumption.
  - rewrite version_other by discriminate. split.
    + intros (H1 & H2 & H3 & H4 & H5 & H6 & H7 & H8). destruct H3 as (w & HR & HU).
      eexists; split; [exists w; split; [exact HR|reflexivity]|]; rfields; repeat (split; [assumption|]); assumption.
    + intros (p1 & (w & HR & ->) & H1 & H2 & H3 & H4 & H5 & H6 & H7 & H8).
      cbn [pr_hash_algorithms pr_key_type pr_notes pr_key_data pr_service_types pr_flags pr_ext_tags] in *.
      repeat (split; [first [assumption|eexists; split; eassumption]|]); assumption.
  - rewrite version_other by discriminate. split.
    + intros (H1 & H2 & H3 & H4 & H5 & H6 & H7 & H8). destruct H4 as (w & HR & HU).
      eexists; split; [exists w; split; [exact HR|reflexivity]|]; rfields; repeat (split; [assumption|]); assumption.
    + intros (p1 & (w & HR & ->) & H1 & H2 & H3 & H4 & H5 & H6 & H7 & H8).
      cbn [pr_hash_algorithms pr_key_type pr_notes pr_key_data pr_service_types pr_flags pr_ext_tags] in *.
      repeat (split; [first [assumption|eexists; split; eassumption]|]); assumption.
  - rewrite version_other by discriminate. split.
    + intros (H1 & H2 & H3 & H4 & H5 & H6 & H7 & H8). destruct H5 as (w & HR & HU).
      eexists; split; [exists w; split; [exact HR|reflexivity]|]; rfields; repeat (split; [assumption|]); assumption.
    + intros (p1 & (w & HR & ->) & H1 & H2 & H3 & H4 & H5 & H6 & H7 & H8).
      cbn [pr_hash_algorithms pr_key_type pr_notes pr_key_data pr_service_types pr_flags pr_ext_tags] in *.
      repeat (split; [first [assumption|eexists; split; eassumption]|]); assumption.
  - rewrite version_other by discriminate. split.
    + intros (H1 & H2 & H3 & H4 & H5 & H6 & H7 & H8). destruct H6 as (w & HR & HU).
      eexists; split; [exists w; split; [exact HR|reflexivity]|]; rfields; repeat (split; [assumption|]); assumption.
    + intros (p1 & (w & HR & ->) & H1 & H2 & H3 & H4 & H5 & H6 & H7 & H8).
      cbn [pr_hash_algorithms pr_key_type pr_notes pr_key_data pr_service_types pr_flags pr_ext_tags] in *.
      repeat (split; [first [assumption|eexists; split; eassumption]|]); assumption.
  - rewrite version_other by discriminate. split.
    + intros (H1 & H2 & H3 & H4 & H5 & H6 & H7 & H8). destruct H7 as (w & HR & HU).
      eexists; split; [exists w; split; [exact HR|reflexivity]|]; rfields; repeat (split; [assumption|]); assumption.
    + intros (p1 & (w & HR & ->) & H1 & H2 & H3 & H4 & H5 & H6 & H7 & H8).
      cbn [pr_hash_algorithms pr_key_type pr_notes pr_key_data pr_service_types pr_flags pr_ext_tags] in *.
      repeat (split; [first [assumption|eexists; split; eassumption]|]); assumption.
Qed.

Lemma bad_key_lit : forall pre first n v e,
  bad_key_tag pre first (mkTag (lit n) v) e <-> key_tag_error pre n first v e.
Proof.
  intros. unfold bad_key_tag. cbn [tag_name tag_value]. split.
  - intros (n' & H1 & H2). apply lit_inj in H1. subst. exact H2.
  - intros H. exists n. auto.
Qed.

Lemma bad_key_other : forall pre first n v e, mem_str n known_key_tags = false ->
  ~ bad_key_tag pre first (mkTag n v) e.
Proof.
  intros pre first n v e H (n' & H1 & H2). cbn in H1. subst n. inv H2; vm_compute in H; discriminate.
Qed.

Definition kno_bad (pre first : bool) (tags : list TagSpec) : Prop :=
  forall before t after e, tags = before ++ t :: after -> ~ bad_key_tag pre (first && is_first before) t e.
Definition kfirst_bad (pre first : bool) (tags : list TagSpec) (e : KeyRecordError) : Prop :=
  exists before t after, tags = before ++ t :: after
    /\ kno_bad pre first before /\ bad_key_tag pre (first && is_first before) t e.

Lemma kno_bad_cons : forall pre first t ts,
  kno_bad pre first (t :: ts) <-> (forall e, ~ bad_key_tag pre first t e) /\ kno_bad pre false ts.
Proof.
  intros pre first t ts. unfold kno_bad. split.
  - intros H. split.
    + intros e. specialize (H [] t ts e eq_refl). cbn [is_first] in H. rewrite andb_true_r in H. exact H.
    + intros before u after e E. specialize (H (t :: before) u after e). cbn [is_first] in H.
      rewrite andb_false_r in H. apply H. rewrite E. reflexivity.
  - intros [H1 H2] before u after e E. destruct before as [|b before]; injection E as -> E.
    + cbn [is_first]. rewrite andb_true_r. apply H1.
    + cbn [is_first]. rewrite andb_false_r. exact (H2 before u after e E).
Qed.

Lemma kfirst_bad_head : forall pre first t ts e, (forall e', bad_key_tag pre first t e' <-> e' = e) ->
  forall e', kfirst_bad pre first (t :: ts) e' <-> e' = e.
Proof.
  intros pre first t ts e H e'. split.
  - intros (before & u & after & E & H1 & H2). destruct before as [|t0 before]; injection E as <- E.
    + cbn [is_first] in H2. rewrite andb_true_r in H2. apply H. exact H2.
    + exfalso. apply kno_bad_cons in H1. destruct H1 as [H1 _]. apply (H1 e). apply H. reflexivity.
  - intros ->. exists [], t, ts. split; [reflexivity|]. split.
    + intros before u after e' E. destruct before; discriminate.
    + cbn [is_first]. rewrite andb_true_r. apply H. reflexivity.
Qed.

Lemma kfirst_bad_tail : forall pre first t ts, (forall e', ~ bad_key_tag pre first t e') ->
  forall e, kfirst_bad pre first (t :: ts) e <-> kfirst_bad pre false ts e.
Proof.
  intros pre first t ts H e. split.
  - intros (before & u & after & E & H1 & H2). destruct before as [|t0 before]; injection E as -> E.
    + exfalso. cbn [is_first] in H2. rewrite andb_true_r in H2. exact (H _ H2).
    + exists before, u, after. split; [exact E|]. apply kno_bad_cons in H1. split; [apply H1|].
      cbn [is_first] in H2. rewrite andb_false_r in H2. exact H2.
  - intros (before & u & after & -> & H1 & H2). exists (t :: before), u, after. split; [reflexivity|].
    split; [apply kno_bad_cons; auto|]. cbn [is_first]. rewrite andb_false_r. exact H2.
Qed.

Lemma kno_first_bad : forall pre tags first, (forall e, ~ kfirst_bad pre first tags e) -> kno_bad pre first tags.
Proof.
  intros pre. induction tags as [|t ts IH]; intros first H.
  - intros before t after e E. destruct before; discriminate.
  - assert (forall e, ~ bad_key_tag pre first t e) as Ht.
    { intros e He. apply (H e). exists [], t, ts. split; [reflexivity|]. split.
      - intros before u after e' E. destruct before; discriminate.
      - cbn [is_first]. rewrite andb_true_r. exact He. }
    apply kno_bad_cons. split; [exact Ht|]. apply IH. intros e He. apply (H e). apply kfirst_bad_tail; assumption.
Qed.

Lemma kno_bad_not_first : forall pre first tags, kno_bad pre first tags -> forall e, ~ kfirst_bad pre first tags e.
Proof. intros pre first tags H e (before & t & after & E & _ & Hb). exact (H before t after e E Hb). Qed.

Lemma rec_tags_spec : forall pre tags i p, NoDup (map tag_name tags) -> Forall wfv tags ->
  decides (rec_tags pre i p tags) (kreads pre (Nat.eqb i 0) p tags) (kfirst_bad pre (Nat.eqb i 0) tags).
Proof.
  intros pre. induction tags as [|[n v] ts IH]; intros i p HN HW.
  - cbn [rec_tags decides]. split; [apply kreads_nil|].
    intros k (before & t & after & E & _). destruct before; discriminate.
  - inv HN. inv HW. cbn [tag_name] in *. cbn [rec_tags].
    destruct (mem_str n known_key_tags) eqn:K.
    + destruct (known_key_cases n K) as (name & -> & Hname).
      pose proof (rec_tag_known pre i p name v Hname H3) as S.
      destruct (rec_tag pre i p (mkTag (lit name) v)) as [[p1|k1]|]; [| |destruct S]; cbn [bind decides] in S |- *.
      * destruct S as [S1 S2]. specialize (IH (Datatypes.S i) p1 H2 H4). change (Nat.eqb (Datatypes.S i) 0) with false in IH.
        assert (forall p', kreads pre (Nat.eqb i 0) p (mkTag (lit name) v :: ts) p' <-> kreads pre false p1 ts p') as R.
        { intros p'. rewrite kreads_known by assumption. split.
          - intros (p2 & Hs & Hr). apply S1 in Hs. subst. exact Hr.
          - intros Hr. exists p1. split; [apply S1; reflexivity|exact Hr]. }
        assert (forall k, kfirst_bad pre (Nat.eqb i 0) (mkTag (lit name) v :: ts) k <-> kfirst_bad pre false ts k) as F.
        { apply kfirst_bad_tail. intros k. rewrite bad_key_lit. apply S2. }
        unfold decides in IH |- *. destruct (rec_tags pre (Datatypes.S i) p1 ts) as [[p'|k']|]; [| |exact IH]; destruct IH as [I1 I2].
        { split; [intros a'; rewrite R; apply I1|intros k; rewrite F; apply I2]. }
        { split; [intros a'; rewrite F; apply I1|intros k; rewrite R; apply I2]. }
      * destruct S as [S1 S2]. split.
        { apply kfirst_bad_head. intros k'. rewrite bad_key_lit. apply S1. }
        { intros p'. rewrite kreads_known by assumption. intros (p1 & Hs & _). exact (S2 _ Hs). }
    + set (p1 := let '(mkPRec h k nt kd st fl e) := p in mkPRec h k nt kd st fl (e ++ [(n, v)])).
      assert (rec_tag pre i p (mkTag n v) = Val (Ok p1)) as ->.
      { assert (forall m, mem_str (lit m) known_key_tags = true -> leqb n (lit m) = false) as N.
        { intros m Hm. apply leqb_neq. intros ->. congruence. }
        unfold rec_tag. destruct p as [h k nt kd st fl e]. cbn [tag_name tag_value].
        rewrite !N by reflexivity. reflexivity. }
      cbn [bind]. specialize (IH (S i) p1 H2 H4). change (Nat.eqb (S i) 0) with false in IH.
      assert (forall p', kreads pre (Nat.eqb i 0) p (mkTag n v :: ts) p' <-> kreads pre false p1 ts p') as R
        by (intros p'; apply kreads_other; exact K).
      assert (forall k, kfirst_bad pre (Nat.eqb i 0) (mkTag n v :: ts) k <-> kfirst_bad pre false ts k) as F
        by (apply kfirst_bad_tail; intros k; apply bad_key_other; exact K).
      unfold decides in IH |- *. destruct (rec_tags pre (S i) p1 ts) as [[p'|k']|]; [| |exact IH]; destruct IH as [I1 I2].
      { split; [intros a'; rewrite R; apply I1|intros k; rewrite F; apply I2]. }
      { split; [intros a'; rewrite F; apply I1|intros k; rewrite R; apply I2]. }
Qed.

Lemma or_default_upd : forall A (R : str -> A -> Prop) d n tags o,
  upd n R tags None o -> or_default R d (get n tags) (unwrap_or o d).
Proof.
  intros A R d n tags o H. unfold upd in H. unfold or_default. destruct (get n tags).
  - destruct H as (v & -> & H). exact H.
  - subst. reflexivity.
Qed.

Definition prec_of (tags : list TagSpec) (r : KeyRecord) : PRec :=
  let opt {A} n (v : A) := match get n tags with Some _ => Some v | None => None end in
  mkPRec (opt "h"%string (k_hash_algorithms r)) (opt "k"%string (k_key_type r)) (k_notes r) (Some (k_key_data r))
    (opt "s"%string (k_service_types r)) (opt "t"%string (k_flags r)) (k_ext_tags r).

Lemma upd_opt : forall A (R : str -> A -> Prop) n tags d v,
  or_default R d (get n tags) v ->
  upd n R tags None (match get n tags with Some _ => Some v | None => None end).
Proof. intros A R n tags d v H. unfold upd, or_default in *. destruct (get n tags); eauto. Qed.

Lemma record_kreads : forall pre tags r, record_of pre tags r -> kreads pre true prec_init tags (prec_of tags r).
Proof.
  intros pre tags r (H1 & H2 & H3 & H4 & (t5 & G5 & H5) & H6 & H7 & H8). unfold kreads, prec_init, prec_of. rfields.
  split. { intros before t after E Ht. destruct (H1 before t after E Ht). auto. }
  split; [eapply upd_opt; exact H2|]. split; [eapply upd_opt; exact H3|].
  split; [apply optional_upd; exact H4|]. split; [unfold upd; rewrite G5; eauto|].
  split; [eapply upd_opt; exact H6|]. split; [eapply upd_opt; exact H7|]. exact H8.
Qed.

Lemma record_from_tags_spec : forall pre tags, NoDup (map tag_name tags) -> Forall wfv tags ->
  decides (record_from_tags pre tags) (record_of pre tags) (key_first_error pre tags).
Proof.
  intros pre tags HN HW. unfold record_from_tags.
  pose proof (rec_tags_spec pre tags 0 prec_init HN HW) as S. change (Nat.eqb 0 0) with true in S.
  assert (forall e, key_first_error pre tags e <->
            kfirst_bad pre true tags e \/ (kno_bad pre true tags /\ get "p" tags = None /\ e = MissingKeyTag)) as FE.
  { intros e. split.
    - intros H. inv H; [left; exists before, t, after; auto|right; auto].
    - intros [(before & t & after & E & H1 & H2)|(H1 & H2 & ->)]; [eapply kf_tag; eassumption|apply kf_missing; assumption]. }
  destruct (rec_tags pre 0 prec_init tags) as [[p|e]|]; [| |destruct S]; cbn [bind decides] in *; destruct S as [S1 S2].
  - pose proof (kno_first_bad _ _ _ S2) as NB.
    pose proof (proj2 (S1 p) eq_refl) as HR.
    assert (forall r, record_of pre tags r -> p = prec_of tags r) as UNI.
    { intros r Hr. symmetry. apply S1. apply record_kreads. exact Hr. }
    destruct HR as (H1 & H2 & H3 & H4 & H5 & H6 & H7 & H8). unfold prec_init in *.
    cbn [pr_hash_algorithms pr_key_type pr_notes pr_key_data pr_service_types pr_flags pr_ext_tags] in *.
    destruct (pr_key_data p) as [kd|] eqn:EK.
    + destruct (upd_get _ _ _ _ _ H5) as (t5 & G5 & R5). split.
      * intros r. split.
        { intros Hr. pose proof (UNI r Hr) as ->. destruct Hr as (Q1 & Q2 & Q3 & Q4 & Q5 & Q6 & Q7 & Q8).
          unfold prec_of in *. cbn [pr_hash_algorithms pr_key_type pr_notes pr_key_data pr_service_types pr_flags pr_ext_tags] in *.
          injection EK as EK. destruct r. cbn in *. f_equal; auto.
          - destruct (get "h" tags); [reflexivity|]. exact Q2.
          - destruct (get "k" tags); [reflexivity|]. exact Q3.
          - destruct (get "s" tags); [reflexivity|]. exact Q6.
          - destruct (get "t" tags); [reflexivity|]. exact Q7. }
        { intros ->. unfold record_of.
          cbn [k_hash_algorithms k_key_type k_notes k_key_data k_service_types k_flags k_ext_tags].
          split. { intros before t after E Ht. destruct (H1 before t after E Ht) as [[_ X] Y]. auto. }
          split; [apply or_default_upd; exact H2|]. split; [apply or_default_upd; exact H3|].
          split; [apply optional_upd; exact H4|]. split; [eauto|].
          split; [apply or_default_upd; exact H6|]. split; [apply or_default_upd; exact H7|]. exact H8. }
      * intros e. rewrite FE. intros [H|(_ & H & _)]; [exact (S2 _ H)|congruence].
    + apply upd_get_none in H5. split.
      * intros e. rewrite FE. split; [intros [H|(_ & _ & H)]; [exfalso; exact (S2 _ H)|exact H]|intros ->; auto].
      * intros r (_ & _ & _ & _ & (t5 & G5 & _) & _). congruence.
  - split.
    + intros e'. rewrite FE, <- S1. split; [intros [H|(H & _)]; [exact H|]|auto].
      exfalso. apply (kno_bad_not_first _ _ _ H e). apply S1. reflexivity.
    + intros r Hr. apply record_kreads in Hr. exact (S2 _ Hr).
Qed.

Lemma record_from_str_spec : forall pre s,
  decides (record_from_str pre s)
    (fun r => exists tags, tag_list_from_str s = Ok tags /\ record_of pre tags r)
    (fun e => ((forall tags, tag_list_from_str s <> Ok tags) /\ e = KTagListFormat)
              \/ exists tags, tag_list_from_str s = Ok tags /\ key_first_error pre tags e).
Proof.
  intros pre s. unfold record_from_str. destruct (tag_list_from_str s) as [tags|e0] eqn:E.
  - destruct (tags_wf s tags E) as [HN HW].
    pose proof (record_from_tags_spec pre tags HN HW) as S. unfold decides in *.
    destruct (record_from_tags pre tags) as [[r|e]|]; [| |exact S]; destruct S as [S1 S2]; split.
    + intros r'. rewrite <- S1. split; [intros (tags' & [= <-] & H); exact H|eauto].
    + intros e [[H _]|(tags' & [= <-] & H)]; [exact (H _ eq_refl)|exact (S2 _ H)].
    + intros e'. rewrite <- S1. split; [intros [[H _]|(tags' & [= <-] & H)]; [exfalso; exact (H _ eq_refl)|exact H]|eauto].
    + intros r (tags' & [= <-] & H). exact (S2 _ H).
  - cbn [decides]. split.
    + intros e. split; [intros [[_ H]|(tags & [=] & _)]; exact H|]. intros ->. left. split; [discriminate|reflexivity].
    + intros r (tags & [=] & _).
Qed.

Lemma decides_ok : forall A K (r : outcome (result A K)) P E, decides r P E -> forall a, r = Val (Ok a) <-> P a.
Proof.
  intros A K r P E H a. unfold decides in H. destruct r as [[a'|k]|]; [| |destruct H]; destruct H as [H1 H2].
  - rewrite H1. split; congruence.
  - split; [discriminate|]. intros Ha. exfalso. exact (H2 _ Ha).
Qed.
Lemma decides_err : forall A K (r : outcome (result A K)) P E, decides r P E -> forall e, r = Val (Err e) <-> E e.
Proof.
  intros A K r P E H a. unfold decides in H. destruct r as [[a'|k]|]; [| |destruct H]; destruct H as [H1 H2].
  - split; [discriminate|]. intros Ha. exfalso. exact (H2 _ Ha).
  - rewrite H1. split; congruence.
Qed.
Lemma decides_val : forall A K (r : outcome (result A K)) P E, decides r P E -> exists v, r = Val v.
Proof. intros A K [v|] P E H; [eauto|destruct H]. Qed.

Lemma record_exact : forall pre s r,
  record_from_str pre s = Val (Ok r) <->
  exists tags, tag_list_text s (map (fun t => (tag_name t, tag_value t)) tags)
    /\ NoDup (map fst (map (fun t => (tag_name t, tag_value t)) tags))
    /\ record_of pre tags r.
Proof.
  intros pre s r. rewrite (decides_ok _ _ _ _ _ (record_from_str_spec pre s)). split; intros (tags & H); exists tags.
  - rewrite tag_list_ok in H. tauto.
  - rewrite tag_list_ok. tauto.
Qed.

Lemma record_ok_iff : forall pre s r,
  record_from_str pre s = Val (Ok r) <-> exists tags, tag_list_from_str s = Ok tags /\ record_of pre tags r.
Proof. intros pre s r. apply (decides_ok _ _ _ _ _ (record_from_str_spec pre s)). Qed.

Lemma not_tag_list : forall s, (forall tags, tag_list_from_str s <> Ok tags) <->
  ~ (exists pairs, tag_list_text s pairs /\ NoDup (map fst pairs)).
Proof.
  intros s. split.
  - intros H1 (pairs & P1 & P2).
    apply (H1 (map (fun '(n, v) => mkTag n v) pairs)). apply tag_list_ok.
    assert (pairs_of (map (fun '(n, v) => mkTag n v) pairs) = pairs) as ->; [|auto].
    unfold pairs_of. rewrite map_map. rewrite <- (map_id pairs) at 2. apply map_ext. intros [n v]. reflexivity.
  - intros H1 tags H. apply tag_list_ok in H. apply H1. eauto.
Qed.

Lemma record_error_exact : forall pre s e,
  record_from_str pre s = Val (Err e) <->
  (~ (exists pairs, tag_list_text s pairs /\ NoDup (map fst pairs)) /\ e = KTagListFormat)
  \/ (exists tags, tag_list_text s (map (fun t => (tag_name t, tag_value t)) tags)
       /\ NoDup (map fst (map (fun t => (tag_name t, tag_value t)) tags))
       /\ key_first_error pre tags e).
Proof.
  intros pre s e. rewrite (decides_err _ _ _ _ _ (record_from_str_spec pre s)). rewrite not_tag_list.
  split; (intros [H|(tags & H)]; [left; exact H|right; exists tags]).
  - rewrite tag_list_ok in H. tauto.
  - rewrite tag_list_ok. tauto.
Qed.

Lemma recognised_no_sha1 : forall ss l, recognised (hash_name false) ss l -> ~ In Sha1 l.
Proof.
  intros ss l H. induction H; auto.
  intros [->|H1]; [|auto]. inv H. discriminate.
Qed.

Lemma record_invariants : forall pre s r, record_from_str pre s = Val (Ok r) ->
  k_hash_algorithms r <> [] /\ k_service_types r <> []
  /\ (pre = false -> ~ In Sha1 (k_hash_algorithms r))
  /\ Forall (fun '(n, _) => ~ In n known_key_tags) (k_ext_tags r).
Proof.
  intros pre s r H. apply record_ok_iff in H. destruct H as (tags & _ & H).
  destruct H as (_ & H2 & _ & _ & _ & H6 & _ & H8). unfold or_default in *. split; [|split; [|split]].
  - destruct (get "h" tags); [apply H2|]. rewrite H2. destruct pre; discriminate.
  - destruct (get "s" tags); [apply H6|]. rewrite H6. discriminate.
  - intros ->. destruct (get "h" tags).
    + destruct H2 as [(items & _ & H2) _]. eapply recognised_no_sha1. exact H2.
    + rewrite H2. intros [X|[]]. discriminate.
  - rewrite H8. apply ext_tags_unknown.
Qed.

Lemma record_order : forall pre s s' tags tags' r,
  tag_list_from_str s = Ok tags -> tag_list_from_str s' = Ok tags' -> Permutation tags tags' ->
  (forall t, In t tags -> tag_name t = lit "v" -> hd_error tags' = Some t) ->
  record_from_str pre s = Val (Ok r) ->
  exists r', record_from_str pre s' = Val (Ok r')
    /\ k_hash_algorithms r' = k_hash_algorithms r /\ k_key_type r' = k_key_type r
    /\ k_notes r' = k_notes r /\ k_key_data r' = k_key_data r
    /\ k_service_types r' = k_service_types r /\ k_flags r' = k_flags r
    /\ Permutation (k_ext_tags r') (k_ext_tags r).
Proof.
  intros pre s s' tags tags' r H1 H2 HP HV H. apply record_ok_iff in H. destruct H as (ts & E & H).
  assert (ts = tags) as -> by congruence. destruct (tags_wf s tags H1) as [HN _].
  assert (forall n, get n tags' = get n tags) as G by (intros n; symmetry; apply tag_get_perm; assumption).
  destruct H as (Q1 & Q2 & Q3 & Q4 & Q5 & Q6 & Q7 & Q8).
  exists (mkKeyRecord (k_hash_algorithms r) (k_key_type r) (k_notes r) (k_key_data r) (k_service_types r) (k_flags r)
            (ext_tags known_key_tags tags')).
  split.
  - apply record_ok_iff. exists tags'. split; [exact H2|]. unfold record_of. rewrite !G.
    cbn [k_hash_algorithms k_key_type k_notes k_key_data k_service_types k_flags k_ext_tags].
    split.
    + intros before t after E' Ht.
      assert (In t tags) as Hin.
      { apply (Permutation_in _ (Permutation_sym HP)). rewrite E'. apply in_or_app. right. left. reflexivity. }
      pose proof (HV t Hin Ht) as Hhd.
      destruct (in_split t tags Hin) as (b & a & Eb). destruct (Q1 b t a Eb Ht) as [_ Hval]. split; [|exact Hval].
      destruct (tags_wf s' tags' H2) as [HN' _]. rewrite E' in Hhd, HN'. destruct before as [|t0 before]; [reflexivity|].
      cbn in Hhd. injection Hhd as ->. exfalso. cbn [app map] in HN'. inv HN'. apply H3.
      rewrite map_app. apply in_or_app. right. left. reflexivity.
    + repeat (split; [assumption|]). reflexivity.
  - repeat (split; [reflexivity|]). cbn [k_ext_tags]. rewrite Q8. apply ext_tags_perm. symmetry. exact HP.
Qed.
