(** Proofs about signatures. *)

From Coq Require Import String List Permutation.
From Verif Require Import Base Utf8 Canon BodyHash Header QP TagList Domain Signature Lib
  SpecText SpecHeader SpecTag SpecCanon SpecDomain SpecSig
  HeaderCanonProofs Utf8Proofs QPProofs QPDecode Base64Proofs HeaderProofs TagListProofs DomainProofs.

(** ** Names *)

Lemma eqic_named : forall t name, lower (lit name) = lit name ->
  (eq_ignore_ascii_case t (lit name) = true <-> named t name).
Proof. intros t name H. rewrite eqic_lower, H. reflexivity. Qed.

Lemma eqic_named_false : forall t name, lower (lit name) = lit name ->
  (eq_ignore_ascii_case t (lit name) = false <-> ~ named t name).
Proof.
  intros t name H. rewrite <- eqic_named by exact H.
  destruct (eq_ignore_ascii_case t (lit name)); split; congruence.
Qed.

Ltac eqics :=
  repeat match goal with
  | E : eq_ignore_ascii_case ?t (lit ?n) = true |- _ => apply (eqic_named t n) in E; [|reflexivity]
  | E : eq_ignore_ascii_case ?t (lit ?n) = false |- _ => apply (eqic_named_false t n) in E; [|reflexivity]
  end.

Lemma named_inj : forall t a b, named t a -> named t b -> lit a = lit b.
Proof. unfold named. intros. congruence. Qed.

Ltac named_clash :=
  match goal with
  | H1 : named ?t ?a, H2 : named ?t ?b |- _ => pose proof (named_inj _ _ _ H1 H2); discriminate
  | H1 : named ?t ?a, H2 : ~ named ?t ?a |- _ => contradiction
  end.

Lemma alg_from_str_spec : forall pre t a, alg_from_str pre t = Some a <-> algorithm_text pre t a.
Proof.
  intros pre t a. unfold alg_from_str.
  destruct (eq_ignore_ascii_case t (lit "rsa-sha256")) eqn:E1; eqics.
  { split; intros H; [injection H as <-; constructor; auto|]. inv H; try reflexivity; named_clash. }
  destruct (eq_ignore_ascii_case t (lit "ed25519-sha256")) eqn:E2; eqics.
  { split; intros H; [injection H as <-; constructor; auto|]. inv H; try reflexivity; named_clash. }
  destruct pre; cbn [andb].
  2:{ split; intros H; [discriminate|]. inv H; try named_clash. discriminate. }
  destruct (eq_ignore_ascii_case t (lit "rsa-sha1")) eqn:E3; eqics.
  { split; intros H; [injection H as <-; constructor; auto|]. inv H; try reflexivity; named_clash. }
  split; intros H; [discriminate|]. inv H; named_clash.
Qed.

Lemma canon_alg_from_str_spec : forall t a, canon_alg_from_str t = Some a <-> canon_alg_text t a.
Proof.
  intros t a. unfold canon_alg_from_str.
  destruct (eq_ignore_ascii_case t (lit "simple")) eqn:E1; eqics.
  { split; intros H; [injection H as <-; constructor; auto|]. inv H; try reflexivity; named_clash. }
  destruct (eq_ignore_ascii_case t (lit "relaxed")) eqn:E2; eqics.
  { split; intros H; [injection H as <-; constructor; auto|]. inv H; try reflexivity; named_clash. }
  split; intros H; [discriminate|]. inv H; named_clash.
Qed.

Lemma lower_in_47 : forall s, In 47 s -> In 47 (lower s).
Proof.
  intros s H. unfold lower. apply in_map_iff. exists 47. split; [reflexivity|exact H].
Qed.

Lemma canon_alg_no_slash : forall t a, canon_alg_text t a -> ~ In 47 t.
Proof.
  intros t a H Hin. apply lower_in_47 in Hin.
  inv H; unfold named in *; rewrite H0 in Hin; cbv in Hin;
    repeat (destruct Hin as [Hin|Hin]; [discriminate|]); exact Hin.
Qed.

Lemma canonicalization_from_str_spec : forall t c,
  canonicalization_from_str t = Some c <-> canonicalization_text t c.
Proof.
  intros t c. unfold canonicalization_from_str. pose proof (split_once_spec 47 t) as S. split.
  - intros H. destruct (split_once 47 t) as [[h b]|].
    + destruct S as [-> S]. destruct (canon_alg_from_str h) eqn:E1; [|discriminate].
      destruct (canon_alg_from_str b) eqn:E2; [|discriminate]. injection H as <-.
      apply canon_alg_from_str_spec in E1, E2. exact (cz_both h b _ _ E1 E2).
    + destruct (canon_alg_from_str t) eqn:E1; [|discriminate]. injection H as <-.
      apply canon_alg_from_str_spec in E1. apply cz_header. exact E1.
  - intros H. clear S. inv H.
    + simpl. rewrite split_once_app by (eapply canon_alg_no_slash; eassumption).
      apply canon_alg_from_str_spec in H0, H1. rewrite H0, H1. reflexivity.
    + rewrite split_once_none by (eapply canon_alg_no_slash; eassumption).
      apply canon_alg_from_str_spec in H0. rewrite H0. reflexivity.
Qed.

(** ** Numbers *)

Lemma parse_digits_spec : forall s acc n, acc <= u64_max ->
  (parse_digits acc s = Some n <->
   Forall (fun c => 48 <= c <= 57) s /\ n = fold_left (fun acc c => acc * 10 + (c - 48)) s acc
   /\ n <= u64_max).
Proof.
  induction s as [|c s IH]; intros acc n Ha; cbn [parse_digits fold_left].
  - split; [intros [= <-]; auto|intros (_ & -> & _); reflexivity].
  - unfold is_ascii_digit, in_range. destruct ((48 <=? c) && (c <=? 57)) eqn:E.
    + set (acc' := acc * 10 + (c - 48)). destruct (acc' <=? u64_max) eqn:E2.
      * rewrite IH by lia. split; intros (H1 & H2 & H3); split; auto.
        { constructor; [lia|auto]. } { inv H1. auto. }
      * split; [discriminate|]. intros (H1 & H2 & H3). exfalso.
        assert (forall l a, a <= fold_left (fun acc c => acc * 10 + (c - 48)) l a) as M.
        { clear. induction l; intros; cbn [fold_left]; [lia|].
          etransitivity; [|apply IHl]. lia. }
        pose proof (M s acc'). lia.
    + split; [discriminate|]. intros (H1 & _). inv H1. lia.
Qed.

Lemma parse_u64_spec : forall t n, parse_u64 t = Some n <-> number_text t n.
Proof.
  intros t n. unfold parse_u64, number_text.
  set (ds := match t with c :: s' => if c =? 43 then s' else t | [] => [] end).
  assert (forall digits, Forall (fun c => 48 <= c <= 57) digits -> digits <> [] ->
            (t = digits \/ t = 43 :: digits <-> ds = digits)) as D.
  { intros digits H Hn. unfold ds. destruct t as [|c t].
    - split; [intros [->| ?]; [reflexivity|discriminate]|auto].
    - destruct (c =? 43) eqn:E.
      + apply N.eqb_eq in E. subst. split; [intros [<-|[= <-]]; [|reflexivity]|intros ->; auto].
        inv H. lia.
      + split; [intros [<-|[= -> ->]]; [reflexivity|discriminate]|auto]. }
  destruct (is_nil ds) eqn:E.
  - split; [discriminate|]. intros (digits & H1 & H2 & H3 & _).
    apply (D digits H2 H1) in H3. apply is_nil_true in E. congruence.
  - apply is_nil_false in E. rewrite parse_digits_spec by (unfold u64_max; lia). split.
    + intros (H1 & H2 & H3). exists ds. repeat split; auto.
      * apply D; auto.
      * unfold u64_max in H3. lia.
    + intros (digits & H1 & H2 & H3 & H4 & H5). apply (D digits H2 H1) in H3. subst digits.
      repeat split; auto. unfold u64_max. lia.
Qed.

(** ** Values *)

Lemma base64_text_spec : forall t bs, parse_base64_value t = Some bs <-> base64_text t bs.
Proof. exact parse_base64_iff. Qed.

Lemma parse_names_spec : forall ss ns, parse_names ss = Some ns <-> ns = ss /\ Forall field_name ss.
Proof.
  induction ss as [|s ss IH]; intros ns; cbn [parse_names].
  - split; [intros [= <-]; auto|intros [-> _]; reflexivity].
  - destruct (field_name_new s) eqn:E.
    + apply field_name_new_spec in E. destruct E as [-> E]. destruct (parse_names ss) as [r|]; simpl.
      * destruct (proj1 (IH r) eq_refl) as [-> H]. split; [intros [= <-]; auto|intros [-> _]; reflexivity].
      * split; [discriminate|]. intros [-> H]. inv H. exfalso. pose proof (proj2 (IH ss) (conj eq_refl H3)). discriminate.
    + split; [discriminate|]. intros [-> H]. inv H.
      rewrite (proj2 (field_name_new_spec s s) (conj eq_refl H2)) in E. discriminate.
Qed.

Lemma signed_headers_spec : forall t ns, t = [] \/ tag_value_text t ->
  (parse_names (parse_colon_separated_value t) = Some ns <-> signed_headers_text t ns).
Proof.
  intros t ns Ht. rewrite parse_names_spec. unfold signed_headers_text.
  pose proof (colon_separated_spec t ns Ht) as C. split.
  - intros [-> H]. split; [apply C; reflexivity|exact H].
  - intros [H1 H2]. apply C in H1. rewrite H1. auto.
Qed.

Lemma existsb_from : forall ns,
  existsb (fun n => name_eqb n (lit "From")) ns = true <-> exists n, In n ns /\ same_name n (lit "From").
Proof.
  intros ns. rewrite existsb_exists. split; intros (n & H1 & H2); exists n; split; auto;
    rewrite name_eqb_same in *; apply same_nameb_iff; assumption.
Qed.

Lemma check_query_spec : forall ss seen k, check_query_methods seen ss = k <->
  match k with
  | None => ~ In [] ss /\ (seen = true \/ exists m, In m ss /\ named m "dns/txt")
  | Some k => (In [] ss /\ k = EInvalidQueryMethod)
      \/ (~ In [] ss /\ seen = false /\ (forall m, In m ss -> ~ named m "dns/txt")
          /\ k = ENoSupportedQueryMethods)
  end.
Proof.
  induction ss as [|s ss IH]; intros seen k; cbn [check_query_methods].
  - destruct seen; split.
    + intros <-. split; [intros []|auto].
    + destruct k as [k|]; auto. intros [[[] _]|(_ & ? & _)]. discriminate.
    + intros <-. right. split; [intros []|]. split; [reflexivity|]. split; [intros m []|reflexivity].
    + destruct k as [k|].
      * intros [[[] _]|(_ & _ & _ & ->)]. reflexivity.
      * intros [_ [?|(m & [] & _)]]. discriminate.
  - destruct s as [|c s]; cbn [is_nil].
    + split; [intros <-; left; simpl; auto|]. destruct k as [k|].
      * intros [[_ ->]|[H _]]; [reflexivity|]. exfalso. apply H. left. reflexivity.
      * intros [H _]. exfalso. apply H. left. reflexivity.
    + set (s0 := c :: s) in *.
      assert (In [] (s0 :: ss) <-> In [] ss) as I by (simpl; split; [intros [?|?]; [discriminate|auto]|auto]).
      rewrite IH. clear IH. 
      destruct (eq_ignore_ascii_case s0 (lit "dns/txt")) eqn:E; eqics.
      * replace (seen || true) with true by (destruct seen; reflexivity). destruct k as [k|]; rewrite I.
        { split; (intros [H|(H1 & H2 & H3 & H4)]; [left; exact H|]); [discriminate|].
          exfalso. apply (H3 s0); [left; reflexivity|exact E]. }
        { split; intros [H1 H2]; split; auto. right. exists s0. split; [left; reflexivity|exact E]. }
      * replace (seen || false) with seen by (destruct seen; reflexivity). destruct k as [k|]; rewrite I.
        { split; (intros [H|(H1 & H2 & H3 & H4)]; [left; exact H|right; split; [exact H1|split; [exact H2|split; [|exact H4]]]]).
          - intros m [<-|Hm]; auto.
          - intros m Hm. apply H3. right. exact Hm. }
        { split; (intros [H1 [H2|(m & H2 & H3)]]; split; auto; right; exists m).
          - split; [right; exact H2|exact H3].
          - destruct H2 as [<-|H2]; [contradiction|]. auto. }
Qed.

Lemma colon_list_det : forall t a b, t = [] \/ tag_value_text t ->
  colon_list t a -> colon_list t b -> a = b.
Proof.
  intros t a b Ht Ha Hb. apply (colon_separated_spec t a Ht) in Ha. apply (colon_separated_spec t b Ht) in Hb.
  congruence.
Qed.

Lemma query_ok_spec : forall t, t = [] \/ tag_value_text t ->
  (check_query_methods false (parse_colon_separated_value t) = None <->
   exists ms, query_methods_text t ms /\ exists m, In m ms /\ named m "dns/txt").
Proof.
  intros t Ht. rewrite check_query_spec. split.
  - intros [H1 [H2|H2]]; [discriminate|]. exists (parse_colon_separated_value t).
    split; [split; [apply colon_separated_spec; auto|exact H1]|exact H2].
  - intros (ms & [H1 H2] & H3). apply (colon_separated_spec t ms Ht) in H1. rewrite H1. auto.
Qed.

Lemma query_err_spec : forall t k, t = [] \/ tag_value_text t ->
  (check_query_methods false (parse_colon_separated_value t) = Some k <->
   ((forall ms, ~ query_methods_text t ms) /\ k = EInvalidQueryMethod)
   \/ (exists ms, query_methods_text t ms /\ (forall m, In m ms -> ~ named m "dns/txt")
        /\ k = ENoSupportedQueryMethods)).
Proof.
  intros t k Ht. rewrite check_query_spec.
  assert (colon_list t (parse_colon_separated_value t)) as C by (apply colon_separated_spec; auto).
  split.
  - intros [[H1 ->]|(H1 & _ & H2 & ->)].
    + left. split; [|reflexivity]. intros ms [H2 H3]. rewrite (colon_list_det _ _ _ Ht C H2) in H1. auto.
    + right. exists (parse_colon_separated_value t). split; [split; auto|auto].
  - intros [[H1 ->]|(ms & [H1 H2] & H3 & ->)].
    + left. split; [|reflexivity].
      destruct (in_dec (list_eq_dec N.eq_dec) [] (parse_colon_separated_value t)); auto.
      exfalso. apply (H1 (parse_colon_separated_value t)). split; auto.
    + right. rewrite (colon_list_det _ _ _ Ht C H1). auto.
Qed.

Lemma bar_join : forall l, bar_joined l = join 124 l.
Proof.
  induction l as [|x l IH]; [reflexivity|]. destruct l; [reflexivity|].
  rewrite join_cons by discriminate. rewrite <- IH. reflexivity.
Qed.

Lemma parse_copied_spec : forall ps, exists r, parse_copied ps = Val r /\
  forall hs, r = Some hs <-> Forall2 (fun p '(n, v) => field_name n /\ qp_text p (n ++ [58] ++ v)) ps hs.
Proof.
  induction ps as [|p ps (r & E & IH)]; cbn [parse_copied].
  - eexists. split; [reflexivity|]. intros hs. split; [intros [= <-]; constructor|intros H; inv H; reflexivity].
  - destruct (qp_header_field_spec p) as (r1 & E1 & H1). rewrite E1. cbn [bind].
    destruct r1 as [[n v]|].
    + rewrite E. cbn [bind]. eexists. split; [reflexivity|]. intros hs.
      destruct (proj1 (H1 n v) eq_refl) as [Hn Hq].
      destruct r as [hs1|]; simpl.
      * split; [intros [= <-]; constructor; [auto|apply IH; reflexivity]|].
        intros H. inv H. destruct y as [n' v']. destruct H3 as [H3 H4].
        pose proof (proj2 (H1 n' v') (conj H3 H4)) as X. injection X as -> ->.
        apply IH in H5. congruence.
      * split; [discriminate|]. intros H. inv H. apply IH in H5. discriminate.
    + eexists. split; [reflexivity|]. intros hs. split; [discriminate|]. intros H. inv H.
      destruct y as [n v]. apply H1 in H3. discriminate.
Qed.

Lemma copied_spec : forall t, exists r, parse_copied (split_on 124 t) = Val r /\
  forall hs, r = Some hs <-> copied_headers_text t hs.
Proof.
  intros t. destruct (parse_copied_spec (split_on 124 t)) as (r & E & H). exists r. split; [exact E|].
  intros hs. rewrite H. unfold copied_headers_text. split.
  - intros H1. exists (split_on 124 t). split; [apply split_on_nonempty|].
    split; [apply Forall_forall; intros p Hp; eapply split_on_no_sep; eassumption|].
    split; [rewrite bar_join, join_split_on; reflexivity|exact H1].
  - intros (ps & H1 & H2 & H3 & H4). rewrite bar_join in H3. subst t.
    rewrite split_on_join; auto. apply Forall_forall. exact H2.
Qed.

Lemma identity_tag_spec : forall idna t, exists r,
  (let! r := parse_quoted_printable_value t in
   match r with
   | None => Val None
   | Some v => match from_utf8 v with
               | None => Val None
               | Some v => identity_new idna v
               end
   end) = Val r /\ forall i, r = Some i <-> identity_tag_text idna t i.
Proof.
  intros idna t. unfold parse_quoted_printable_value, identity_tag_text.
  destruct (qp_decode_spec t) as (r & E & H). rewrite E. cbn [bind].
  destruct r as [bs|].
  2:{ eexists. split; [reflexivity|]. intros i. split; [discriminate|].
      intros (s & _ & H1 & _). apply H in H1. discriminate. }
  pose proof (proj1 (H bs) eq_refl) as Hq. destruct (from_utf8 bs) as [s|] eqn:U.
  - apply from_utf8_spec in U. destruct U as [U1 U2].
    destruct (identity_new_spec idna s) as (ri & Ei & Hi). exists ri. split; [exact Ei|]. intros i.
    rewrite Hi. split.
    + intros HH. exists s. rewrite U2. auto.
    + intros (s' & Hs & Hq' & Ht). apply H in Hq'. injection Hq' as Hq'.
      assert (s' = s) as ->; [|exact Ht].
      pose proof (proj2 (from_utf8_spec bs s) (conj U1 U2)) as X1.
      pose proof (proj2 (from_utf8_spec bs s') (conj Hs (eq_sym Hq'))) as X2. congruence.
  - eexists. split; [reflexivity|]. intros i. split; [discriminate|].
    intros (s & Hs & H1 & _). apply H in H1. injection H1 as ->.
    rewrite (proj2 (from_utf8_spec _ s) (conj Hs eq_refl)) in U. discriminate.
Qed.

(** ** One tag *)

Lemma lit_inj : forall a b, lit a = lit b -> a = b.
Proof.
  induction a as [|x a IH]; destruct b as [|y b]; cbn [lit]; intros H; try discriminate; [reflexivity|].
  injection H as H1 H2. f_equal; [|apply IH; exact H2].
  rewrite <- (Ascii.ascii_N_embedding x), <- (Ascii.ascii_N_embedding y). f_equal. exact H1.
Qed.

Definition wfv (t : TagSpec) : Prop := tag_value t = [] \/ tag_value_text (tag_value t).

Lemma bad_tag_lit : forall pre idna n v k, bad_tag pre idna (mkTag (lit n) v) k <-> tag_error pre idna n v k.
Proof.
  intros. unfold bad_tag. cbn [tag_name tag_value]. split.
  - intros (n' & H1 & H2). apply lit_inj in H1. subst. exact H2.
  - intros H. exists n. auto.
Qed.

Lemma bad_tag_other : forall pre idna n v k, mem_str n known_sig_tags = false ->
  ~ bad_tag pre idna (mkTag n v) k.
Proof.
  intros pre idna n v k H (n' & H1 & H2). cbn in H1. subst n. inv H2; vm_compute in H; discriminate.
Qed.

Ltac lits :=
  repeat match goal with
  | |- context [leqb (lit ?a) (lit ?b)] =>
      let x := eval vm_compute in (leqb (lit a) (lit b)) in
      change (leqb (lit a) (lit b)) with x
  | |- context [mem_str (lit ?a) known_sig_tags] =>
      let x := eval vm_compute in (mem_str (lit a) known_sig_tags) in
      change (mem_str (lit a) known_sig_tags) with x
  end; cbv iota.

Lemma known_cases : forall n, mem_str n known_sig_tags = true ->
  exists name, n = lit name
    /\ In name ["v"; "a"; "b"; "bh"; "c"; "d"; "h"; "i"; "l"; "q"; "s"; "t"; "x"; "z"]%string.
Proof.
  intros n H. apply mem_str_In in H. unfold known_sig_tags in H. apply in_map_iff in H.
  destruct H as (name & <- & H). eauto.
Qed.

(** the assignments made by a single tag *)
Definition set_tag (pre : bool) (idna : Idna) (p : PSig) (n : string) (t : str) (p' : PSig) : Prop :=
  let '(mkPSig vs a b bh c d h i l s ts x z e) := p in
  match n with
  | "v" => t = lit "1" /\ p' = mkPSig true a b bh c d h i l s ts x z e
  | "a" => exists v, algorithm_text pre t v /\ p' = mkPSig vs (Some v) b bh c d h i l s ts x z e
  | "b" => exists v, (base64_text t v /\ v <> []) /\ p' = mkPSig vs a (Some v) bh c d h i l s ts x z e
  | "bh" => exists v, (base64_text t v /\ v <> []) /\ p' = mkPSig vs a b (Some v) c d h i l s ts x z e
  | "c" => exists v, canonicalization_text t v /\ p' = mkPSig vs a b bh (Some v) d h i l s ts x z e
  | "d" => exists v, (v = t /\ domain_text idna t true) /\ p' = mkPSig vs a b bh c (Some v) h i l s ts x z e
  | "h" => exists v, (signed_headers_text t v /\ exists n, In n v /\ same_name n (lit "From"))
             /\ p' = mkPSig vs a b bh c d (Some v) i l s ts x z e
  | "i" => exists v, identity_tag_text idna t v /\ p' = mkPSig vs a b bh c d h (Some v) l s ts x z e
  | "l" => exists v, number_text t v /\ p' = mkPSig vs a b bh c d h i (Some v) s ts x z e
  | "q" => (exists ms, query_methods_text t ms /\ exists m, In m ms /\ named m "dns/txt") /\ p' = p
  | "s" => exists v, (v = t /\ domain_text idna t false) /\ p' = mkPSig vs a b bh c d h i l (Some v) ts x z e
  | "t" => exists v, number_text t v /\ p' = mkPSig vs a b bh c d h i l s (Some v) x z e
  | "x" => exists v, number_text t v /\ p' = mkPSig vs a b bh c d h i l s ts (Some v) z e
  | "z" => exists v, copied_headers_text t v /\ p' = mkPSig vs a b bh c d h i l s ts x (Some v) e
  | _ => False
  end%string.

(** a result that is an error exactly for [E] and a value exactly for [P] *)
Definition decides {A K} (r : outcome (result A K)) (P : A -> Prop) (E : K -> Prop) : Prop :=
  match r with
  | Val (Ok a) => (forall a', P a' <-> a' = a) /\ (forall k, ~ E k)
  | Val (Err k) => (forall k', E k' <-> k' = k) /\ (forall a, ~ P a)
  | _ => False
  end.

Lemma decides_option : forall A B K (o : option A) (R : A -> Prop) (f : A -> B) (k : K) (E : K -> Prop),
  (forall a, o = Some a <-> R a) -> (forall k', E k' <-> k' = k /\ forall a, ~ R a) ->
  decides (Val (match o with Some v => Ok (f v) | None => Err k end))
    (fun p => exists v, R v /\ p = f v) E.
Proof.
  intros A B K o R f k E H1 H2. unfold decides. destruct o as [v|].
  - pose proof (proj1 (H1 v) eq_refl) as Hv. split.
    + intros a'. split; [|intros ->; eauto]. intros (v' & Hv' & ->). apply H1 in Hv'. congruence.
    + intros k' Hk. apply H2 in Hk. destruct Hk as [_ Hk]. exact (Hk v Hv).
  - assert (forall a, ~ R a) as N by (intros a Ha; apply H1 in Ha; discriminate). split.
    + intros k'. rewrite H2. tauto.
    + intros a (v & Hv & _). exact (N v Hv).
Qed.

Lemma sig_tag_known : forall pre idna p n v,
  In n ["v"; "a"; "b"; "bh"; "c"; "d"; "h"; "i"; "l"; "q"; "s"; "t"; "x"; "z"]%string ->
  v = [] \/ tag_value_text v ->
  decides (sig_tag pre idna p (mkTag (lit n) v)) (set_tag pre idna p n v) (tag_error pre idna n v).
Proof.
  intros pre idna [vs a b bh c d h i l s ts x z e] n v Hn Hv.
  unfold sig_tag. cbn [tag_name tag_value].
  repeat (destruct Hn as [<-|Hn]; [lits; unfold set_tag; cbv beta iota zeta|]); [..|destruct Hn].
  - (* v *) destruct (leqb v (lit "1")) eqn:E; cbn [negb decides].
    + apply leqb_eq in E. subst. split; [intros a'; split; [intros [_ ->]|intros ->]; auto|].
      intros k H. inv H. congruence.
    + apply leqb_neq in E. split; [|intros a' [? _]; auto].
      intros k. split; [intros H; inv H; reflexivity|intros ->; constructor; exact E].
  - (* a *) pose proof (alg_from_str_spec pre v) as S.
    destruct (alg_from_str pre v) as [al|] eqn:E; cbn [decides].
    + pose proof (proj1 (S al) eq_refl) as Ha. split.
      * intros a'. split; [|intros ->; eauto]. intros (v' & Hv' & ->). apply S in Hv'. congruence.
      * intros k H. inv H; [|eapply H1; eassumption]. inv Ha; try named_clash; discriminate.
    + assert (forall al, ~ algorithm_text pre v al) as N by (intros al Ha; apply S in Ha; discriminate).
      split; [|intros a' (v' & Hv' & _); exact (N _ Hv')].
      intros k. destruct (eq_ignore_ascii_case v (lit "rsa-sha1")) eqn:E1; eqics.
      * destruct pre; cbn [negb andb].
        { exfalso. apply (N RsaSha1). constructor; auto. }
        { split; [intros H; inv H; [reflexivity|contradiction]|intros ->; constructor; auto]. }
      * rewrite andb_false_r. split; [intros H; inv H; [named_clash|reflexivity]|intros ->; apply te_a; auto].
  - (* b *) pose proof (base64_text_spec v) as S.
    destruct (parse_base64_value v) as [bs|]; cbn [decides].
    + pose proof (proj1 (S bs) eq_refl) as Hb. destruct bs as [|b0 bs]; cbn [is_nil decides].
      * split; [|intros a' (v' & (H1 & H2) & _); apply S in H1; congruence].
        intros k. split; [intros H; inv H; [exfalso; eapply H0; eassumption|reflexivity]|intros ->; constructor; auto].
      * split.
        { intros a'. split; [|intros ->; eexists; split; [split; [eassumption|discriminate]|reflexivity]].
          intros (v' & (H1 & _) & ->). apply S in H1. congruence. }
        { intros k H. inv H; [eapply H0; eassumption|apply S in H0; discriminate]. }
    + assert (forall bs, ~ base64_text v bs) as N by (intros bs Hb; apply S in Hb; discriminate).
      split; [|intros a' (v' & (H1 & _) & _); exact (N _ H1)].
      intros k. split; [intros H; inv H; [reflexivity|exfalso; eapply N; eassumption]|intros ->; constructor; auto].
  - (* bh *) pose proof (base64_text_spec v) as S.
    destruct (parse_base64_value v) as [bs|]; cbn [decides].
    + pose proof (proj1 (S bs) eq_refl) as Hb. destruct bs as [|b0 bs]; cbn [is_nil decides].
      * split; [|intros a' (v' & (H1 & H2) & _); apply S in H1; congruence].
        intros k. split; [intros H; inv H; [exfalso; eapply H0; eassumption|reflexivity]|intros ->; constructor; auto].
      * split.
        { intros a'. split; [|intros ->; eexists; split; [split; [eassumption|discriminate]|reflexivity]].
          intros (v' & (H1 & _) & ->). apply S in H1. congruence. }
        { intros k H. inv H; [eapply H0; eassumption|apply S in H0; discriminate]. }
    + assert (forall bs, ~ base64_text v bs) as N by (intros bs Hb; apply S in Hb; discriminate).
      split; [|intros a' (v' & (H1 & _) & _); exact (N _ H1)].
      intros k. split; [intros H; inv H; [reflexivity|exfalso; eapply N; eassumption]|intros ->; constructor; auto].
  - (* c *) apply decides_option; [apply canonicalization_from_str_spec|].
    intros k. split; [intros H; inv H; auto|intros [-> H]; constructor; exact H].
  - (* d *) destruct (domain_new_spec idna v) as (r & -> & S). cbn [bind].
    apply decides_option; [exact S|].
    intros k. split.
    + intros H. inv H. split; [reflexivity|]. intros a0 [_ H1]. contradiction.
    + intros [-> H]. constructor. intros H1. exact (H v (conj eq_refl H1)).
  - (* h *) pose proof (signed_headers_spec v) as S.
    destruct v as [|c0 v]; cbn [is_nil].
    + cbn [decides]. split.
      * intros k. split; [intros H; inv H; auto; congruence|intros ->; constructor].
      * intros a' (v' & (H1 & H2) & _). apply S in H1; [|auto]. discriminate.
    + set (w := c0 :: v) in *. destruct (parse_names (parse_colon_separated_value w)) as [ns|] eqn:E.
      * pose proof (proj1 (S ns Hv) eq_refl) as Hs.
        pose proof (existsb_from ns) as F.
        destruct (existsb (fun n => name_eqb n (lit "From")) ns); cbn [negb decides].
        { split.
          - intros a'. split; [|intros ->; exists ns; split; [split; [exact Hs|apply F; reflexivity]|reflexivity]].
            intros (v' & (H1 & _) & ->). apply S in H1; [|exact Hv]. congruence.
          - intros k H. inv H.
            + eapply H1; eassumption.
            + apply S in H1; [|exact Hv]. injection H1 as <-. destruct (proj1 F eq_refl) as (m & Hm1 & Hm2).
              exact (H2 m Hm1 Hm2). }
        { assert (forall m, In m ns -> ~ same_name m (lit "From")) as NF.
          { intros m Hm1 Hm2. assert (false = true) by (apply F; eauto). discriminate. }
          split.
          - intros k. split; [intros H; inv H; [exfalso; eapply H1; eassumption|reflexivity]|].
            intros ->. eapply te_h_from; [discriminate|exact Hs|exact NF].
          - intros a' (v' & (H1 & m & Hm1 & Hm2) & ->). apply S in H1; [|exact Hv]. injection H1 as <-.
            exact (NF m Hm1 Hm2). }
      * cbn [decides].
        assert (forall ns, ~ signed_headers_text w ns) as N by (intros ns H; apply S in H; [discriminate|exact Hv]).
        split.
        { intros k. split; [intros H; inv H; [reflexivity|exfalso; eapply N; eassumption]|].
          intros ->. apply te_h; [discriminate|exact N]. }
        { intros a' (v' & (H1 & _) & _). exact (N _ H1). }
  - (* i *) destruct (identity_tag_spec idna v) as (r & E & S).
    replace (let! r := parse_quoted_printable_value v in _) with
      (let! r := (let! r := parse_quoted_printable_value v in
        match r with
        | None => Val None
        | Some v => match from_utf8 v with None => Val None | Some v => identity_new idna v end
        end) in
       Val (match r with
            | Some v => Ok (mkPSig vs a b bh c d h (Some v) l s ts x z e)
            | None => Err EInvalidIdentity
            end)).
    + rewrite E. cbn [bind]. apply decides_option; [exact S|].
      intros k. split; [intros H; inv H; auto|intros [-> H]; constructor; exact H].
    + rewrite bind_assoc. destruct (parse_quoted_printable_value v) as [[bs|]|]; cbn [bind]; try reflexivity.
      destruct (from_utf8 bs); reflexivity.
  - (* l *) apply decides_option; [apply parse_u64_spec|].
    intros k. split; [intros H; inv H; auto|intros [-> H]; constructor; exact H].
  - (* q *) pose proof (query_ok_spec v Hv) as S1.
    destruct (check_query_methods false (parse_colon_separated_value v)) as [k|] eqn:E; cbn [decides].
    + pose proof (fun k' => query_err_spec v k' Hv) as S2. rewrite E in S2. split.
      * intros k'. split; [|intros ->].
        { intros H. assert (Some k = Some k') as X; [|congruence]. apply S2. inv H; [left; auto|right; eauto]. }
        { destruct (proj1 (S2 k) eq_refl) as [[H ->]|(ms & H1 & H2 & ->)]; [constructor; exact H|].
          eapply te_q_none; eassumption. }
      * intros a' [H _]. apply S1 in H. discriminate.
    + split; [intros a'; split; [intros [_ ->]; reflexivity|intros ->; split; [apply S1; reflexivity|reflexivity]]|].
      intros k H. assert (None = Some k) as X; [|discriminate]. rewrite <- E. apply query_err_spec; [exact Hv|].
      inv H; [left; auto|right; eauto].
  - (* s *) destruct (selector_new_spec idna v) as (r & -> & S). cbn [bind].
    apply decides_option; [exact S|].
    intros k. split.
    + intros H. inv H. split; [reflexivity|]. intros a0 [_ H1]. contradiction.
    + intros [-> H]. constructor. intros H1. exact (H v (conj eq_refl H1)).
  - (* t *) apply decides_option; [apply parse_u64_spec|].
    intros k. split; [intros H; inv H; auto|intros [-> H]; constructor; exact H].
  - (* x *) apply decides_option; [apply parse_u64_spec|].
    intros k. split; [intros H; inv H; auto|intros [-> H]; constructor; exact H].
  - (* z *) destruct (copied_spec v) as (r & -> & S). cbn [bind].
    apply decides_option; [exact S|].
    intros k. split; [intros H; inv H; auto|intros [-> H]; constructor; exact H].
Qed.

(** ** All tags *)

Lemma get_app_none : forall n t ts, get n (t :: ts) = if leqb (tag_name t) (lit n) then Some (tag_value t) else get n ts.
Proof. reflexivity. Qed.

Lemma tag_get_none : forall n ts, ~ In n (map tag_name ts) -> tag_get n ts = None.
Proof.
  induction ts as [|t ts IH]; cbn [tag_get map In]; intros H; [reflexivity|].
  destruct (leqb (tag_name t) n) eqn:E; [apply leqb_eq in E; tauto|]. apply IH. tauto.
Qed.

Lemma tag_get_In : forall n ts v, NoDup (map tag_name ts) -> (tag_get n ts = Some v <-> In (mkTag n v) ts).
Proof.
  induction ts as [|t ts IH]; cbn [tag_get map In]; intros v H.
  - split; [discriminate|intros []].
  - inv H. destruct (leqb (tag_name t) n) eqn:E.
    + apply leqb_eq in E. subst n. split.
      * intros [= <-]. left. destruct t; reflexivity.
      * intros [->|H]; [reflexivity|]. exfalso. apply H2. apply (in_map tag_name) in H. exact H.
    + apply leqb_neq in E. rewrite IH by assumption. split; [auto|]. intros [->|H]; [|exact H]. exfalso. apply E. reflexivity.
Qed.

Lemma raw_tag_spec : forall n ts acc, NoDup (map tag_name ts) ->
  raw_tag n acc ts = match tag_get n ts with Some v => Some v | None => acc end.
Proof.
  induction ts as [|t ts IH]; cbn [tag_get raw_tag map]; intros acc H; [reflexivity|].
  inv H. rewrite IH by assumption. destruct (leqb (tag_name t) n) eqn:E; [|reflexivity].
  apply leqb_eq in E. subst n. rewrite tag_get_none by assumption. reflexivity.
Qed.

Lemma raw_tag_get : forall n ts, NoDup (map tag_name ts) -> raw_tag (lit n) None ts = get n ts.
Proof. intros n ts H. rewrite raw_tag_spec by exact H. unfold get. destruct (tag_get (lit n) ts); reflexivity. Qed.

Definition upd {A} (n : string) (R : str -> A -> Prop) (tags : list TagSpec) (old new : option A) : Prop :=
  match get n tags with Some t => exists v, new = Some v /\ R t v | None => new = old end.

Definition reads (pre : bool) (idna : Idna) (p : PSig) (tags : list TagSpec) (p' : PSig) : Prop :=
  match get "v" tags with
  | Some t => t = lit "1" /\ p_version_seen p' = true
  | None => p_version_seen p' = p_version_seen p
  end
  /\ upd "a" (algorithm_text pre) tags (p_algorithm p) (p_algorithm p')
  /\ upd "b" (fun t v => base64_text t v /\ v <> []) tags (p_signature_data p) (p_signature_data p')
  /\ upd "bh" (fun t v => base64_text t v /\ v <> []) tags (p_body_hash p) (p_body_hash p')
  /\ upd "c" canonicalization_text tags (p_canonicalization p) (p_canonicalization p')
  /\ upd "d" (fun t v => v = t /\ domain_text idna t true) tags (p_domain p) (p_domain p')
  /\ upd "h" (fun t v => signed_headers_text t v /\ exists n, In n v /\ same_name n (lit "From")) tags
       (p_signed_headers p) (p_signed_headers p')
  /\ upd "i" (identity_tag_text idna) tags (p_identity p) (p_identity p')
  /\ upd "l" number_text tags (p_body_length p) (p_body_length p')
  /\ match get "q" tags with
     | Some t => exists ms, query_methods_text t ms /\ exists m, In m ms /\ named m "dns/txt"
     | None => True
     end
  /\ upd "s" (fun t v => v = t /\ domain_text idna t false) tags (p_selector p) (p_selector p')
  /\ upd "t" number_text tags (p_timestamp p) (p_timestamp p')
  /\ upd "x" number_text tags (p_expiration p) (p_expiration p')
  /\ upd "z" copied_headers_text tags (p_copied_headers p) (p_copied_headers p')
  /\ p_ext_tags p' = p_ext_tags p ++ ext_tags known_sig_tags tags.

Ltac pfields :=
  cbn [p_version_seen p_algorithm p_signature_data p_body_hash p_canonicalization p_domain
    p_signed_headers p_identity p_body_length p_selector p_timestamp p_expiration p_copied_headers p_ext_tags].

Lemma upd_same : forall A n (R : str -> A -> Prop) v0 ts old new, get n ts = None ->
  (upd n R (mkTag (lit n) v0 :: ts) old new <-> exists v, R v0 v /\ upd n R ts (Some v) new).
Proof.
  intros. unfold upd. rewrite get_app_none, H. cbn [tag_name tag_value]. rewrite leqb_refl.
  split; intros (v & H1 & H2); exists v; auto.
Qed.

Lemma upd_other : forall A n (R : str -> A -> Prop) t ts old new, leqb (tag_name t) (lit n) = false ->
  (upd n R (t :: ts) old new <-> upd n R ts old new).
Proof. intros. unfold upd. rewrite get_app_none, H. reflexivity. Qed.

Lemma reads_nil : forall pre idna p p', reads pre idna p [] p' <-> p' = p.
Proof.
  intros. unfold reads, upd. cbn [get tag_get ext_tags]. rewrite app_nil_r. split.
  - destruct p, p'. cbn. intros H. decompose [and] H. congruence.
  - intros ->. repeat split.
Qed.

Lemma reads_other : forall pre idna p t ts p', mem_str (tag_name t) known_sig_tags = false ->
  (reads pre idna p (t :: ts) p' <->
   reads pre idna (let '(mkPSig vs a b bh c d h i l s ts x z e) := p in
      mkPSig vs a b bh c d h i l s ts x z (e ++ [(tag_name t, tag_value t)])) ts p').
Proof.
  intros pre idna p t ts p' H.
  assert (forall n, mem_str (lit n) known_sig_tags = true -> leqb (tag_name t) (lit n) = false) as N.
  { intros n Hn. apply leqb_neq. intros E. rewrite E in H. congruence. }
  unfold reads. rewrite !upd_other by (apply N; reflexivity).
  rewrite !get_app_none, !N by reflexivity. destruct p as [vs a b bh c d h i l s tm x z e]. pfields.
  cbn [ext_tags]. rewrite H. rewrite <- app_assoc. reflexivity.
Qed.

Lemma reads_known : forall pre idna p n v ts p',
  In n ["v"; "a"; "b"; "bh"; "c"; "d"; "h"; "i"; "l"; "q"; "s"; "t"; "x"; "z"]%string ->
  get n ts = None ->
  (reads pre idna p (mkTag (lit n) v :: ts) p' <->
   exists p1, set_tag pre idna p n v p1 /\ reads pre idna p1 ts p').
Proof.
  intros pre idna [vs a b bh c d h i l s tm x z e] n v ts p' Hn Hg.
  repeat (destruct Hn as [<-|Hn]; [unfold set_tag; cbv beta iota zeta|]); [..|destruct Hn];
  unfold reads; pfields;
  rewrite ?upd_other by reflexivity; rewrite ?upd_same by exact Hg;
  rewrite !get_app_none; cbn [tag_name tag_value ext_tags]; lits.
  2-9,11-14: (split;
    [ intros (H1 & H2 & H3 & H4 & H5 & H6 & H7 & H8 & H9 & H10 & H11 & H12 & H13 & H14 & H15);
      match goal with H : exists _, _ /\ upd _ _ _ _ _ |- _ => destruct H as (w & HR & HU) end;
      eexists; split; [exists w; split; [exact HR|reflexivity]|]; pfields; repeat (split; [assumption|]); assumption
    | intros (p1 & (w & HR & ->) & H1 & H2 & H3 & H4 & H5 & H6 & H7 & H8 & H9 & H10 & H11 & H12 & H13 & H14 & H15);
      cbn [p_version_seen p_algorithm p_signature_data p_body_hash p_canonicalization p_domain
        p_signed_headers p_identity p_body_length p_selector p_timestamp p_expiration p_copied_headers p_ext_tags] in *;
      repeat (split; [first [assumption|eexists; split; eassumption]|]); assumption ]).
  - rewrite Hg. split.
    + intros ((Hv & H1) & H2). eexists. split; [split; [exact Hv|reflexivity]|]. pfields. split; [exact H1|exact H2].
    + intros (p1 & (Hv & ->) & H1 & H2). pfields. split; [split; [exact Hv|exact H1]|exact H2].
  - rewrite Hg. split.
    + intros (H1 & H2 & H3 & H4 & H5 & H6 & H7 & H8 & H9 & H10 & H11). eexists.
      split; [split; [exact H10|reflexivity]|]. pfields. tauto.
    + intros (p1 & (Hv & ->) & H1 & H2 & H3 & H4 & H5 & H6 & H7 & H8 & H9 & H10 & H11). pfields.
      repeat (split; [assumption|]). assumption.
Qed.

Definition first_bad (pre : bool) (idna : Idna) (tags : list TagSpec) (k : SigErrorKind) : Prop :=
  exists before t after, tags = before ++ t :: after
    /\ (forall u k', In u before -> ~ bad_tag pre idna u k') /\ bad_tag pre idna t k.

Lemma first_bad_head : forall pre idna t ts k, (forall k', bad_tag pre idna t k' <-> k' = k) ->
  forall k', first_bad pre idna (t :: ts) k' <-> k' = k.
Proof.
  intros pre idna t ts k H k'. split.
  - intros (before & u & after & E & H1 & H2). destruct before as [|t0 before]; injection E as <- E.
    + apply H. exact H2.
    + exfalso. eapply H1; [left; reflexivity|]. apply H. reflexivity.
  - intros ->. exists [], t, ts. split; [reflexivity|]. split; [intros u k' []|]. apply H. reflexivity.
Qed.

Lemma first_bad_tail : forall pre idna t ts, (forall k', ~ bad_tag pre idna t k') ->
  forall k, first_bad pre idna (t :: ts) k <-> first_bad pre idna ts k.
Proof.
  intros pre idna t ts H k. split.
  - intros (before & u & after & E & H1 & H2). destruct before as [|t0 before]; injection E as -> E.
    + exfalso. eapply H. eassumption.
    + exists before, u, after. split; [exact E|]. split; [|exact H2]. intros w k' Hw. apply H1. right. exact Hw.
  - intros (before & u & after & -> & H1 & H2). exists (t :: before), u, after. split; [reflexivity|].
    split; [|exact H2]. intros w k' [<-|Hw]; [apply H|apply H1; exact Hw].
Qed.

Lemma no_first_bad : forall pre idna tags, (forall k, ~ first_bad pre idna tags k) ->
  forall u k, In u tags -> ~ bad_tag pre idna u k.
Proof.
  induction tags as [|t ts IH]; intros H u k Hu; [destruct Hu|].
  assert (forall k, ~ bad_tag pre idna t k) as Ht.
  { intros k' Hk. apply (H k'). exists [], t, ts. split; [reflexivity|]. split; [intros ? ? []|exact Hk]. }
  destruct Hu as [<-|Hu]; [apply Ht|]. apply IH; [|exact Hu].
  intros k' Hk. apply (H k'). apply first_bad_tail; assumption.
Qed.

Lemma sig_tags_spec : forall pre idna tags p, NoDup (map tag_name tags) -> Forall wfv tags ->
  decides (sig_tags pre idna p tags) (reads pre idna p tags) (first_bad pre idna tags).
Proof.
  induction tags as [|[n v] ts IH]; intros p HN HW.
  - cbn [sig_tags decides]. split; [apply reads_nil|].
    intros k (before & t & after & E & _). destruct before; discriminate.
  - inv HN. inv HW. cbn [tag_name] in *. cbn [sig_tags].
    destruct (mem_str n known_sig_tags) eqn:K.
    + destruct (known_cases n K) as (name & -> & Hname).
      pose proof (sig_tag_known pre idna p name v Hname H3) as S.
      assert (get name ts = None) as G by (apply tag_get_none; exact H1).
      destruct (sig_tag pre idna p (mkTag (lit name) v)) as [[p1|k1]|]; [| |destruct S]; cbn [bind decides] in S |- *.
      * destruct S as [S1 S2]. specialize (IH p1 H2 H4).
        assert (forall p', reads pre idna p (mkTag (lit name) v :: ts) p' <-> reads pre idna p1 ts p') as R.
        { intros p'. rewrite reads_known by assumption. split.
          - intros (p2 & Hs & Hr). apply S1 in Hs. subst. exact Hr.
          - intros Hr. exists p1. split; [apply S1; reflexivity|exact Hr]. }
        assert (forall k, first_bad pre idna (mkTag (lit name) v :: ts) k <-> first_bad pre idna ts k) as F.
        { apply first_bad_tail. intros k. rewrite bad_tag_lit. apply S2. }
        unfold decides in IH |- *. destruct (sig_tags pre idna p1 ts) as [[p'|k']|]; [| |exact IH]; destruct IH as [I1 I2].
        { split; [intros a'; rewrite R; apply I1|intros k; rewrite F; apply I2]. }
        { split; [intros a'; rewrite F; apply I1|intros k; rewrite R; apply I2]. }
      * destruct S as [S1 S2]. split.
        { apply first_bad_head. intros k'. rewrite bad_tag_lit. apply S1. }
        { intros p'. rewrite reads_known by assumption. intros (p1 & Hs & _). exact (S2 _ Hs). }
    + set (p1 := let '(mkPSig vs a b bh c d h i l s ts x z e) := p in
            mkPSig vs a b bh c d h i l s ts x z (e ++ [(n, v)])).
      assert (sig_tag pre idna p (mkTag n v) = Val (Ok p1)) as ->.
      { assert (forall m, mem_str (lit m) known_sig_tags = true -> leqb n (lit m) = false) as N.
        { intros m Hm. apply leqb_neq. intros ->. congruence. }
        unfold sig_tag. destruct p as [vs a b bh c d h i l s tm x z e]. cbn [tag_name tag_value].
        rewrite !N by reflexivity. reflexivity. }
      cbn [bind]. specialize (IH p1 H2 H4).
      assert (forall p', reads pre idna p (mkTag n v :: ts) p' <-> reads pre idna p1 ts p') as R
        by (intros p'; apply reads_other; exact K).
      assert (forall k, first_bad pre idna (mkTag n v :: ts) k <-> first_bad pre idna ts k) as F
        by (apply first_bad_tail; intros k; apply bad_tag_other; exact K).
      unfold decides in IH |- *. destruct (sig_tags pre idna p1 ts) as [[p'|k']|]; [| |exact IH]; destruct IH as [I1 I2].
      { split; [intros a'; rewrite R; apply I1|intros k; rewrite F; apply I2]. }
      { split; [intros a'; rewrite F; apply I1|intros k; rewrite R; apply I2]. }
Qed.

(** ** The final checks *)

Lemma upd_init : forall A n (R : str -> A -> Prop) tags new,
  upd n R tags None new <->
  match new with
  | Some v => exists t, get n tags = Some t /\ R t v
  | None => get n tags = None
  end.
Proof.
  intros. unfold upd. destruct (get n tags) as [t|]; destruct new as [v|]; split; intros H.
  - destruct H as (v' & [= <-] & H). eauto.
  - destruct H as (t' & [= <-] & H). eauto.
  - destruct H as (v' & [=] & H).
  - discriminate.
  - discriminate.
  - destruct H as (t' & [=] & H).
  - reflexivity.
  - reflexivity.
Qed.

Lemma optional_upd : forall A (R : str -> A -> Prop) n tags v,
  upd n R tags None v <-> optional R (get n tags) v.
Proof.
  intros. unfold upd, optional. destruct (get n tags) as [t|]; destruct v as [v|]; split; intros H; auto; try discriminate.
  - destruct H as (v' & [= <-] & H). exact H.
  - eauto.
  - destruct H as (? & [=] & _).
  - destruct H.
  - destruct H.
Qed.

Lemma identity_domain_text : forall idna s i, identity_text idna s i -> domain_text idna (id_domain i) true.
Proof. intros idna s i (_ & H & _). exact H. Qed.

Fixpoint find_missing (tags : list TagSpec) (l : list (string * SigErrorKind)) : option SigErrorKind :=
  match l with
  | [] => None
  | (n, k) :: l' => match get n tags with Some _ => find_missing tags l' | None => Some k end
  end.

Lemma find_missing_spec : forall tags l k,
  find_missing tags l = Some k <->
  exists before n after, l = before ++ (n, k) :: after /\ all_present tags before /\ get n tags = None.
Proof.
  induction l as [|[n k0] l IH]; intros k; cbn [find_missing].
  - split; [discriminate|]. intros (before & n & after & E & _). destruct before; discriminate.
  - destruct (get n tags) eqn:G.
    + rewrite IH. split; intros (before & m & after & E & H1 & H2).
      * exists ((n, k0) :: before), m, after. subst. split; [reflexivity|]. split; [|exact H2].
        constructor; [cbn [fst]; congruence|exact H1].
      * destruct before as [|b before]; [injection E as -> -> ->; congruence|]. injection E as <- ->.
        inv H1. exists before, m, after. auto.
    + split.
      * intros [= <-]. exists [], n, l. split; [reflexivity|]. split; [constructor|exact G].
      * intros (before & m & after & E & H1 & H2). destruct before as [|b before]; [injection E as -> -> ->; reflexivity|].
        injection E as <- E. inv H1. cbn [fst] in *. congruence.
Qed.

Lemma find_missing_none : forall tags l, find_missing tags l = None <-> all_present tags l.
Proof.
  induction l as [|[n k0] l IH]; cbn [find_missing].
  - split; [constructor|reflexivity].
  - destruct (get n tags) eqn:G.
    + rewrite IH. split; intros H; [constructor; [cbn [fst]; congruence|exact H]|inv H; exact H3].
    + split; [discriminate|]. intros H. inv H. cbn [fst] in H2. congruence.
Qed.

Definition finish_error (idna : Idna) (tags : list TagSpec) (k : SigErrorKind) : Prop :=
  find_missing tags mandatory = Some k
  \/ (find_missing tags mandatory = None /\ mismatch idna tags /\ k = EDomainMismatch)
  \/ (find_missing tags mandatory = None /\ ~ mismatch idna tags
      /\ (exists t1 t2 t x, get "t" tags = Some t1 /\ number_text t1 t
           /\ get "x" tags = Some t2 /\ number_text t2 x /\ x <= t) /\ k = EExpirationNotAfterTimestamp).

Lemma signature_present : forall pre idna tags sig, signature_of pre idna tags sig ->
  find_missing tags mandatory = None.
Proof.
  intros pre idna tags sig (H1 & (t2 & H2 & _) & (t3 & H3 & _) & (t4 & H4 & _) & _ & (H5 & _) & (t6 & H6 & _)
    & _ & _ & _ & (H7 & _) & _).
  cbn [find_missing mandatory]. rewrite H1, H2, H3, H4, H5, H6, H7. reflexivity.
Qed.

Lemma number_text_det : forall t a b, number_text t a -> number_text t b -> a = b.
Proof. intros t a b Ha Hb. apply parse_u64_spec in Ha, Hb. congruence. Qed.

Lemma identity_tag_det : forall idna t a b, identity_tag_text idna t a -> identity_tag_text idna t b -> a = b.
Proof.
  intros idna t a b Ha Hb. destruct (identity_tag_spec idna t) as (r & _ & H).
  apply H in Ha, Hb. congruence.
Qed.

Lemma upd_get : forall A n (R : str -> A -> Prop) tags v, upd n R tags None (Some v) ->
  exists t, get n tags = Some t /\ R t v.
Proof. intros A n R tags v H. apply upd_init in H. exact H. Qed.
Lemma upd_get_none : forall A n (R : str -> A -> Prop) tags, upd n R tags None None -> get n tags = None.
Proof. intros A n R tags H. apply upd_init in H. exact H. Qed.

Definition psig_of (tags : list TagSpec) (sig : DkimSig) : PSig :=
  mkPSig true (Some (s_algorithm sig)) (Some (s_signature_data sig)) (Some (s_body_hash sig))
    (match get "c" tags with Some _ => Some (s_canonicalization sig) | None => None end)
    (Some (s_domain sig)) (Some (s_signed_headers sig)) (s_identity sig) (s_body_length sig)
    (Some (s_selector sig)) (s_timestamp sig) (s_expiration sig)
    (match get "z" tags with Some _ => Some (s_copied_headers sig) | None => None end)
    (s_ext_tags sig).

Lemma signature_reads : forall pre idna tags sig, signature_of pre idna tags sig ->
  reads pre idna psig_init tags (psig_of tags sig).
Proof.
  intros pre idna tags sig (S1 & (u2 & E2 & S2) & (u3 & E3 & S3) & (u4 & E4 & S4) & S5 & (E6 & S6) & (u7 & E7 & S7)
    & S8 & S9 & S10 & (E11 & S11) & S12 & S13 & S14 & S15 & _).
  unfold reads, psig_init, psig_of. pfields. rewrite !optional_upd. rewrite S1.
  split; [auto|].
  split; [rewrite E2; exact S2|]. split; [rewrite E3; exact S3|]. split; [rewrite E4; exact S4|].
  split; [destruct (get "c" tags); [exact S5|exact I]|].
  split; [rewrite E6; cbn [optional]; auto|]. split; [rewrite E7; exact S7|].
  split; [exact S8|]. split; [exact S9|]. split; [exact S10|].
  split; [rewrite E11; cbn [optional]; auto|]. split; [exact S12|]. split; [exact S13|].
  split; [destruct (get "z" tags); [exact S14|exact I]|]. exact S15.
Qed.

Lemma sig_finish_spec : forall pre idna tags p,
  (forall p', reads pre idna psig_init tags p' <-> p' = p) ->
  decides (sig_finish idna p) (signature_of pre idna tags) (finish_error idna tags).
Proof.
  intros pre idna tags p HR.
  destruct (proj2 (HR p) eq_refl) as (H1 & H2 & H3 & H4 & H5 & H6 & H7 & H8 & H9 & H10 & H11 & H12 & H13 & H14 & H15).
  cbn [p_version_seen p_algorithm p_signature_data p_body_hash p_canonicalization p_domain
    p_signed_headers p_identity p_body_length p_selector p_timestamp p_expiration p_copied_headers p_ext_tags
    psig_init] in *.
  destruct p as [vs a b bh c d h i l s tm x z e]. unfold sig_finish. pfields.
  assert (forall k, find_missing tags mandatory = Some k ->
            decides (Val (Err k)) (signature_of pre idna tags) (finish_error idna tags)) as MISS.
  { intros k Hk. cbn [decides]. split.
    - intros k'. unfold finish_error. rewrite Hk. split; [|intros ->; auto].
      intros [[= <-]|[[[=] _]|[[=] _]]]. reflexivity.
    - intros sig Hs. apply signature_present in Hs. congruence. }
  cbn [find_missing mandatory] in MISS.
  destruct vs; cbn [negb]; cbn [p_version_seen p_algorithm p_signature_data p_body_hash p_canonicalization p_domain
    p_signed_headers p_identity p_body_length p_selector p_timestamp p_expiration p_copied_headers p_ext_tags] in *.
  2:{ apply MISS. destruct (get "v" tags); [destruct H1; discriminate|reflexivity]. }
  destruct (get "v" tags) as [tv|] eqn:G1; [destruct H1 as [-> _]|discriminate].
  destruct a as [a|]; [|apply upd_get_none in H2; apply MISS; rewrite H2; reflexivity].
  destruct (upd_get _ _ _ _ _ H2) as (t2 & G2 & R2). rewrite G2 in MISS.
  destruct b as [b|]; [|apply upd_get_none in H3; apply MISS; rewrite H3; reflexivity].
  destruct (upd_get _ _ _ _ _ H3) as (t3 & G3 & R3). rewrite G3 in MISS.
  destruct bh as [bh|]; [|apply upd_get_none in H4; apply MISS; rewrite H4; reflexivity].
  destruct (upd_get _ _ _ _ _ H4) as (t4 & G4 & R4). rewrite G4 in MISS.
  destruct d as [d|]; [|apply upd_get_none in H6; apply MISS; rewrite H6; reflexivity].
  destruct (upd_get _ _ _ _ _ H6) as (t6 & G6 & <- & R6). rewrite G6 in MISS.
  destruct h as [h|]; [|apply upd_get_none in H7; apply MISS; rewrite H7; reflexivity].
  destruct (upd_get _ _ _ _ _ H7) as (t7 & G7 & R7). rewrite G7 in MISS.
  destruct s as [s|]; [|apply upd_get_none in H11; apply MISS; rewrite H11; reflexivity].
  destruct (upd_get _ _ _ _ _ H11) as (t11 & G11 & <- & R11). rewrite G11 in MISS.
  clear MISS.
  assert (find_missing tags mandatory = None) as HP
    by (cbn [find_missing mandatory]; rewrite G1, G2, G3, G4, G6, G7, G11; reflexivity).
  (* the identity *)
  set (same := match i with
               | Some id => lower (id_domain id) = lower d \/ ascii_subdomain idna (id_domain id) d
               | None => True
               end).
  assert (exists ok, (match i with Some id => eq_or_subdomain_of idna (id_domain id) d | None => Val true end) = Val ok
            /\ (ok = true <-> same)) as (ok & -> & Hok).
  { destruct i as [id|]; [|exists true; split; [reflexivity|unfold same; tauto]].
    destruct (upd_get _ _ _ _ _ H8) as (t8 & G8 & (s8 & _ & _ & R8)).
    apply identity_domain_text in R8.
    destruct (eq_or_subdomain_spec idna (id_domain id) d true true R8 R6) as (ok & E & Hok). eauto. }
  assert (mismatch idna tags <-> ~ same) as HM.
  { unfold mismatch, same. destruct i as [id|].
    - destruct (upd_get _ _ _ _ _ H8) as (t8 & G8 & R8). split.
      + intros (t & i & d' & Gt & Ht & Gd & HH). rewrite G8 in Gt. injection Gt as <-.
        rewrite (identity_tag_det _ _ _ _ R8 Ht). rewrite G6 in Gd. injection Gd as <-. exact HH.
      + intros HH. exists t8, id, d. auto.
    - apply upd_get_none in H8. split; [|tauto]. intros (t & i & d' & Gt & _). congruence. }
  (* uniqueness *)
  assert (forall sig, signature_of pre idna tags sig ->
            a = s_algorithm sig /\ b = s_signature_data sig /\ bh = s_body_hash sig
            /\ unwrap_or c (mkCanon Simple Simple) = s_canonicalization sig /\ d = s_domain sig
            /\ h = s_signed_headers sig /\ i = s_identity sig /\ l = s_body_length sig /\ s = s_selector sig
            /\ tm = s_timestamp sig /\ x = s_expiration sig /\ unwrap_or z [] = s_copied_headers sig
            /\ e = s_ext_tags sig) as UNI.
  { intros sig HS. pose proof (signature_reads _ _ _ _ HS) as X.
    destruct HS as (_ & _ & _ & _ & S5 & _ & _ & _ & _ & _ & _ & _ & _ & S14 & _).
    apply HR in X. injection X as <- <- <- <- <- <- <- <- <- <- <- <- <-.
    split; [reflexivity|]. split; [reflexivity|]. split; [reflexivity|].
    split; [destruct (get "c" tags); [reflexivity|exact (eq_sym S5)]|].
    repeat (split; [reflexivity|]).
    split; [destruct (get "z" tags); [reflexivity|exact (eq_sym S14)]|]. reflexivity. }
  cbn [bind]. destruct ok; cbn [negb].
  2:{ assert (~ same) as NS by (intros HS; apply Hok in HS; discriminate). split.
      - intros k. unfold finish_error. rewrite HP. split; [|intros ->].
        + intros [[=]|[(_ & _ & ->)|(_ & H & _)]]; [reflexivity|]. exfalso. apply H. apply HM. exact NS.
        + right. left. split; [reflexivity|]. split; [apply HM; exact NS|reflexivity].
      - intros sig Hs. apply NS. pose proof (UNI sig Hs) as U.
        destruct Hs as (_ & _ & _ & _ & _ & _ & _ & _ & _ & _ & _ & _ & _ & _ & _ & S16 & _).
        destruct U as (_ & _ & _ & _ & U5 & _ & U7 & _). unfold same. rewrite U5, U7. exact S16. }
  assert same as HS by (apply Hok; reflexivity).
  assert (~ mismatch idna tags) as NM by (rewrite HM; tauto).
  set (bad := match tm, x with Some t, Some x => x <=? t | _, _ => false end).
  assert (bad = true <-> exists t1 t2 t x, get "t" tags = Some t1 /\ number_text t1 t
           /\ get "x" tags = Some t2 /\ number_text t2 x /\ x <= t) as HB.
  { unfold bad. destruct tm as [tm|].
    - destruct (upd_get _ _ _ _ _ H12) as (t12 & G12 & R12). destruct x as [x|].
      + destruct (upd_get _ _ _ _ _ H13) as (t13 & G13 & R13). split.
        * intros Hx. exists t12, t13, tm, x. repeat split; auto. lia.
        * intros (y1 & y2 & t & x' & Q1 & Q2 & Q3 & Q4 & Q5). rewrite G12 in Q1. rewrite G13 in Q3.
          injection Q1 as <-. injection Q3 as <-.
          rewrite (number_text_det _ _ _ R12 Q2), (number_text_det _ _ _ R13 Q4). lia.
      + apply upd_get_none in H13. split; [discriminate|]. intros (y1 & y2 & t & x' & _ & _ & Q & _). congruence.
    - apply upd_get_none in H12. split; [discriminate|]. intros (y1 & y2 & t & x' & Q & _). congruence. }
  destruct bad; cbn [decides].
  - split.
    + intros k. unfold finish_error. rewrite HP. split; [|intros ->].
      * intros [[=]|[(_ & H & _)|(_ & _ & _ & ->)]]; [|reflexivity]. contradiction.
      * right. right. split; [reflexivity|]. split; [exact NM|]. split; [apply HB|]; reflexivity.
    + intros sig Hs. pose proof (UNI sig Hs) as U.
      destruct Hs as (_ & _ & _ & _ & _ & _ & _ & _ & _ & _ & _ & S12 & S13 & _ & _ & _ & S17).
      destruct (proj1 HB eq_refl) as (y1 & y2 & t & x' & Q1 & Q2 & Q3 & Q4 & Q5).
      rewrite Q1 in S12. rewrite Q3 in S13. destruct (s_timestamp sig) as [ts|]; [|exact S12].
      destruct (s_expiration sig) as [xs|]; [|exact S13]. cbn [optional] in *.
      rewrite (number_text_det _ _ _ S12 Q2), (number_text_det _ _ _ S13 Q4) in S17. lia.
  - split.
    + intros sig. split.
      * intros Hs. apply UNI in Hs. destruct Hs as (-> & -> & -> & -> & -> & -> & -> & -> & -> & -> & -> & -> & ->).
        destruct sig; reflexivity.
      * intros ->. unfold signature_of.
        cbn [s_algorithm s_signature_data s_body_hash s_canonicalization s_domain s_signed_headers s_identity
          s_body_length s_selector s_timestamp s_expiration s_copied_headers s_ext_tags].
        split; [exact G1|]. split; [eauto|]. split; [eauto|]. split; [eauto|].
        split. { unfold upd in H5. destruct (get "c" tags); [destruct H5 as (v & -> & H); exact H|rewrite H5; reflexivity]. }
        split; [auto|]. split; [destruct R7 as [R7 R7']; eauto|].
        split; [apply optional_upd; exact H8|]. split; [apply optional_upd; exact H9|].
        split; [exact H10|]. split; [auto|].
        split; [apply optional_upd; exact H12|]. split; [apply optional_upd; exact H13|].
        split. { unfold upd in H14. destruct (get "z" tags); [destruct H14 as (v & -> & H); exact H|rewrite H14; reflexivity]. }
        split; [exact H15|]. split; [exact HS|].
        destruct tm as [tm|]; [|exact I]. destruct x as [x|]; [|exact I].
        destruct (upd_get _ _ _ _ _ H12) as (t12 & G12 & R12).
        destruct (upd_get _ _ _ _ _ H13) as (t13 & G13 & R13).
        destruct (N.lt_ge_cases tm x) as [|Hge]; [assumption|].
        exfalso. assert (false = true); [|discriminate]. apply HB. exists t12, t13, tm, x. auto.
    + intros k. unfold finish_error. rewrite HP. intros [[=]|[(_ & H & _)|(_ & _ & H & _)]]; [contradiction|].
      apply HB in H. discriminate.
Qed.

(** ** Signatures *)

Lemma sig_internal_spec : forall pre idna tags, NoDup (map tag_name tags) -> Forall wfv tags ->
  decides (sig_from_tags_internal pre idna tags) (signature_of pre idna tags) (first_error pre idna tags).
Proof.
  intros pre idna tags HN HW. unfold sig_from_tags_internal.
  pose proof (sig_tags_spec pre idna tags psig_init HN HW) as S.
  destruct (sig_tags pre idna psig_init tags) as [[p|k]|]; [| |destruct S]; cbn [bind]; destruct S as [S1 S2].
  - pose proof (no_first_bad _ _ _ S2) as NB.
    pose proof (sig_finish_spec pre idna tags p S1) as F.
    assert (forall k, first_error pre idna tags k <-> finish_error idna tags k) as FE.
    { intros k. unfold finish_error. rewrite find_missing_none. split.
      - intros H. inv H.
        + exfalso. eapply (NB t); [apply in_or_app; right; left; reflexivity|eassumption].
        + left. apply find_missing_spec. eauto 6.
        + auto.
        + right. right. split; [assumption|]. split; [assumption|]. split; [|reflexivity]. eauto 10.
      - intros [H|[(H1 & H2 & ->)|(H1 & H2 & (t1 & t2 & t & x & Q1 & Q2 & Q3 & Q4 & Q5) & ->)]].
        + apply find_missing_spec in H. destruct H as (before & n & after & E & Q1 & Q2).
          eapply fe_missing; eassumption.
        + apply fe_domain; assumption.
        + eapply (fe_expiration pre idna tags t1 t2 t x); eassumption. }
    unfold decides in *. destruct (sig_finish idna p) as [[sig|k]|]; [| |exact F]; destruct F as [F1 F2].
    + split; [exact F1|]. intros k. rewrite FE. apply F2.
    + split; [|exact F2]. intros k'. rewrite FE. apply F1.
  - cbn [decides]. split.
    + intros k'. rewrite <- S1. split.
      * intros H. inv H; [exists before, t, after; auto|..]; exfalso;
          destruct (proj2 (S1 k) eq_refl) as (bf & u & af & E & _ & Hu);
          (eapply H0; [rewrite E; apply in_or_app; right; left; reflexivity|eassumption]).
      * intros (before & t & after & E & H1 & H2). eapply fe_tag; eassumption.
    + intros sig Hs. apply signature_reads in Hs. exact (S2 _ Hs).
Qed.

Lemma map_pairs : forall ts, map fst (pairs_of ts) = map tag_name ts.
Proof. intros ts. unfold pairs_of. rewrite map_map. reflexivity. Qed.

Lemma tags_wf : forall s ts, tag_list_from_str s = Ok ts -> NoDup (map tag_name ts) /\ Forall wfv ts.
Proof.
  intros s ts H. apply tag_list_ok in H. destruct H as [H1 H2]. rewrite map_pairs in H2. split; [exact H2|].
  apply tag_list_values in H1. rewrite Forall_forall in H1 |- *. intros t Ht.
  specialize (H1 (tag_name t, tag_value t)). apply H1.
  apply (in_map (fun t => (tag_name t, tag_value t))). exact Ht.
Qed.

Definition raw_error (tags : list TagSpec) (k : SigErrorKind) : SigError :=
  mkSigError k (get "a" tags) (get "b" tags) (get "d" tags) (get "i" tags) (get "s" tags).

Lemma sig_from_tags_spec : forall pre idna tags, NoDup (map tag_name tags) -> Forall wfv tags ->
  exists r, sig_from_tags pre idna tags = Val r
    /\ (forall sig, r = Ok sig <-> signature_of pre idna tags sig)
    /\ (forall e, r = Err e <-> exists k, first_error pre idna tags k /\ e = raw_error tags k).
Proof.
  intros pre idna tags HN HW. unfold sig_from_tags. pose proof (sig_internal_spec pre idna tags HN HW) as S.
  rewrite !raw_tag_get by exact HN.
  destruct (sig_from_tags_internal pre idna tags) as [[sig|k]|]; [| |destruct S]; cbn [bind decides] in *;
    try change (mkSigError k _ _ _ _ _) with (raw_error tags k);
    destruct S as [S1 S2]; (eexists; split; [reflexivity|]); split.
  - intros sig'. rewrite S1. split; congruence.
  - intros e. split; [discriminate|]. intros (k & Hk & _). exfalso. exact (S2 k Hk).
  - intros sig'. split; [discriminate|]. intros Hs. exfalso. exact (S2 sig' Hs).
  - intros e. split.
    + intros E. exists k. split; [apply S1; reflexivity|]. congruence.
    + intros (k' & Hk & ->). apply S1 in Hk. subst k'. reflexivity.
Qed.

Lemma sig_from_str_spec : forall pre idna s,
  exists r, sig_from_str pre idna s = Val r
    /\ (forall sig, r = Ok sig <->
         exists tags, tag_list_from_str s = Ok tags /\ signature_of pre idna tags sig)
    /\ (forall e, r = Err e <->
         ((forall tags, tag_list_from_str s <> Ok tags)
          /\ e = mkSigError ETagListFormat None None None None None)
         \/ (exists tags k, tag_list_from_str s = Ok tags /\ first_error pre idna tags k
              /\ e = raw_error tags k)).
Proof.
  intros pre idna s. unfold sig_from_str. destruct (tag_list_from_str s) as [tags|e0] eqn:E.
  - destruct (tags_wf s tags E) as [HN HW].
    destruct (sig_from_tags_spec pre idna tags HN HW) as (r & -> & S1 & S2).
    exists r. split; [reflexivity|]. split.
    + intros sig. rewrite S1. split; [eauto|]. intros (tags' & [= <-] & H). exact H.
    + intros e. rewrite S2. split.
      * intros (k & Hk & ->). right. eauto.
      * intros [[H _]|(tags' & k & [= <-] & Hk & ->)]; [exfalso; exact (H tags eq_refl)|]. eauto.
  - eexists. split; [reflexivity|]. split.
    + intros sig. split; [discriminate|]. intros (tags & [=] & _).
    + intros e. split; [intros [= <-]; left; split; [discriminate|reflexivity]|].
      intros [[_ ->]|(tags & k & [=] & _)]. reflexivity.
Qed.

Lemma sig_ok_iff : forall pre idna s sig,
  sig_from_str pre idna s = Val (Ok sig) <->
  exists tags, tag_list_from_str s = Ok tags /\ signature_of pre idna tags sig.
Proof.
  intros pre idna s sig. destruct (sig_from_str_spec pre idna s) as (r & -> & H & _).
  rewrite <- H. split; congruence.
Qed.

Lemma sig_err_iff : forall pre idna s e,
  sig_from_str pre idna s = Val (Err e) <->
  ((forall tags, tag_list_from_str s <> Ok tags)
     /\ e = mkSigError ETagListFormat None None None None None)
  \/ (exists tags k, tag_list_from_str s = Ok tags /\ first_error pre idna tags k /\ e = raw_error tags k).
Proof.
  intros pre idna s e. destruct (sig_from_str_spec pre idna s) as (r & -> & _ & H).
  rewrite <- H. split; congruence.
Qed.

(** ** Order of tags *)

Lemma tag_get_perm : forall n ts ts', NoDup (map tag_name ts) -> Permutation ts ts' ->
  tag_get n ts = tag_get n ts'.
Proof.
  intros n ts ts' HN HP.
  assert (NoDup (map tag_name ts')) as HN' by (eapply Permutation_NoDup; [apply Permutation_map; exact HP|exact HN]).
  destruct (tag_get n ts) as [v|] eqn:E1; destruct (tag_get n ts') as [v'|] eqn:E2; auto.
  - apply tag_get_In in E1; [|exact HN]. apply (Permutation_in _ HP) in E1. apply tag_get_In in E1; [|exact HN']. congruence.
  - apply tag_get_In in E1; [|exact HN]. apply (Permutation_in _ HP) in E1. apply tag_get_In in E1; [|exact HN']. congruence.
  - apply tag_get_In in E2; [|exact HN']. apply (Permutation_in _ (Permutation_sym HP)) in E2.
    apply tag_get_In in E2; [|exact HN]. congruence.
Qed.

Lemma ext_tags_perm : forall known ts ts', Permutation ts ts' -> Permutation (ext_tags known ts) (ext_tags known ts').
Proof.
  intros known ts ts' H. induction H; cbn [ext_tags].
  - constructor.
  - destruct (mem_str (tag_name x) known); [assumption|constructor; assumption].
  - destruct (mem_str (tag_name x) known), (mem_str (tag_name y) known); auto. constructor.
  - etransitivity; eassumption.
Qed.

Definition with_ext (sig : DkimSig) (e : list (str * str)) : DkimSig :=
  mkSig (s_algorithm sig) (s_signature_data sig) (s_body_hash sig) (s_canonicalization sig) (s_domain sig)
    (s_signed_headers sig) (s_identity sig) (s_body_length sig) (s_selector sig) (s_timestamp sig)
    (s_expiration sig) (s_copied_headers sig) e.

Lemma signature_perm : forall pre idna ts ts' sig, NoDup (map tag_name ts) -> Permutation ts ts' ->
  signature_of pre idna ts sig ->
  signature_of pre idna ts' (with_ext sig (ext_tags known_sig_tags ts')).
Proof.
  intros pre idna ts ts' sig HN HP H.
  assert (forall n, get n ts' = get n ts) as G by (intros n; symmetry; apply tag_get_perm; assumption).
  unfold signature_of in *. rewrite !G.
  destruct H as (H1 & H2 & H3 & H4 & H5 & H6 & H7 & H8 & H9 & H10 & H11 & H12 & H13 & H14 & H15 & H16).
  repeat (split; [assumption|]). split; [reflexivity|assumption].
Qed.

Lemma sig_order : forall pre idna s s' tags tags' sig,
  tag_list_from_str s = Ok tags -> tag_list_from_str s' = Ok tags' -> Permutation tags tags' ->
  sig_from_str pre idna s = Val (Ok sig) ->
  exists sig', sig_from_str pre idna s' = Val (Ok sig')
    /\ s_algorithm sig' = s_algorithm sig /\ s_signature_data sig' = s_signature_data sig
    /\ s_body_hash sig' = s_body_hash sig /\ s_canonicalization sig' = s_canonicalization sig
    /\ s_domain sig' = s_domain sig /\ s_signed_headers sig' = s_signed_headers sig
    /\ s_identity sig' = s_identity sig /\ s_body_length sig' = s_body_length sig
    /\ s_selector sig' = s_selector sig /\ s_timestamp sig' = s_timestamp sig
    /\ s_expiration sig' = s_expiration sig /\ s_copied_headers sig' = s_copied_headers sig
    /\ Permutation (s_ext_tags sig') (s_ext_tags sig).
Proof.
  intros pre idna s s' tags tags' sig H1 H2 HP H. apply sig_ok_iff in H. destruct H as (ts & E & H).
  assert (ts = tags) as -> by congruence. destruct (tags_wf s tags H1) as [HN _].
  pose proof (signature_perm _ _ _ _ _ HN HP H) as X. eexists. split; [apply sig_ok_iff; eauto|].
  repeat (split; [reflexivity|]). cbn [with_ext s_ext_tags].
  destruct H as (_ & _ & _ & _ & _ & _ & _ & _ & _ & _ & _ & _ & _ & _ & -> & _).
  apply ext_tags_perm. symmetry. exact HP.
Qed.

Lemma ext_tags_unknown : forall known ts, Forall (fun '(n, _) => ~ In n known) (ext_tags known ts).
Proof.
  induction ts as [|t ts IH]; cbn [ext_tags]; [constructor|].
  destruct (mem_str (tag_name t) known) eqn:E; [exact IH|]. constructor; [|exact IH].
  apply mem_str_not_In. exact E.
Qed.

Lemma sig_invariants : forall pre idna s sig, sig_from_str pre idna s = Val (Ok sig) ->
  (exists n, In n (s_signed_headers sig) /\ same_name n (lit "From"))
  /\ Forall field_name (s_signed_headers sig)
  /\ s_signature_data sig <> [] /\ s_body_hash sig <> []
  /\ domain_text idna (s_domain sig) true /\ domain_text idna (s_selector sig) false
  /\ match s_identity sig with
     | Some i => lower (id_domain i) = lower (s_domain sig) \/ ascii_subdomain idna (id_domain i) (s_domain sig)
     | None => True
     end
  /\ match s_timestamp sig, s_expiration sig with Some t, Some x => t < x | _, _ => True end
  /\ Forall (fun '(n, _) => ~ In n known_sig_tags) (s_ext_tags sig)
  /\ (pre = false -> s_algorithm sig <> RsaSha1).
Proof.
  intros pre idna s sig H. apply sig_ok_iff in H. destruct H as (tags & E & H).
  destruct H as (H1 & (t2 & _ & H2) & (t3 & _ & _ & H3) & (t4 & _ & _ & H4) & H5 & (_ & H6) & (t7 & _ & (_ & H7) & H7')
    & H8 & H9 & H10 & (_ & H11) & H12 & H13 & H14 & H15 & H16 & H17).
  rewrite H15. pose proof (ext_tags_unknown known_sig_tags tags) as HE.
  repeat (split; [assumption|]). intros -> HX. rewrite HX in H2. inv H2. discriminate.
Qed.

Lemma sig_error_exact : forall pre idna s e,
  sig_from_str pre idna s = Val (Err e) <->
  (~ (exists pairs, tag_list_text s pairs /\ NoDup (map fst pairs))
     /\ e = mkSigError ETagListFormat None None None None None)
  \/ (exists tags k, tag_list_text s (map (fun t => (tag_name t, tag_value t)) tags)
       /\ NoDup (map fst (map (fun t => (tag_name t, tag_value t)) tags))
       /\ first_error pre idna tags k
       /\ e = mkSigError k (get "a" tags) (get "b" tags) (get "d" tags) (get "i" tags) (get "s" tags)).
Proof.
  intros pre idna s e. rewrite sig_err_iff. split; intros [[H1 H2]|(tags & k & H)].
  - left. split; [|exact H2]. intros (pairs & P1 & P2).
    apply (H1 (map (fun '(n, v) => mkTag n v) pairs)). apply tag_list_ok.
    assert (pairs_of (map (fun '(n, v) => mkTag n v) pairs) = pairs) as ->; [|auto].
    unfold pairs_of. rewrite map_map. rewrite <- (map_id pairs) at 2. apply map_ext. intros [n v]. reflexivity.
  - right. exists tags, k. rewrite tag_list_ok in H. tauto.
  - left. split; [|exact H2]. intros tags H. apply tag_list_ok in H. apply H1. eauto.
  - right. exists tags, k. rewrite tag_list_ok. tauto.
Qed.

Lemma sig_raw_tags : forall pre idna s tags e,
  tag_list_from_str s = Ok tags -> sig_from_str pre idna s = Val (Err e) ->
  forall v,
    (se_algorithm_str e = Some v <-> In (mkTag (lit "a") v) tags)
    /\ (se_signature_data_str e = Some v <-> In (mkTag (lit "b") v) tags)
    /\ (se_domain_str e = Some v <-> In (mkTag (lit "d") v) tags)
    /\ (se_identity_str e = Some v <-> In (mkTag (lit "i") v) tags)
    /\ (se_selector_str e = Some v <-> In (mkTag (lit "s") v) tags).
Proof.
  intros pre idna s tags e H1 H2 v. destruct (tags_wf s tags H1) as [HN _]. apply sig_err_iff in H2.
  destruct H2 as [[H2 _]|(tags' & k & E & _ & ->)]; [exfalso; eapply H2; eassumption|].
  assert (tags' = tags) as -> by congruence.
  cbn [raw_error se_algorithm_str se_signature_data_str se_domain_str se_identity_str se_selector_str].
  repeat split; apply tag_get_In; exact HN.
Qed.
