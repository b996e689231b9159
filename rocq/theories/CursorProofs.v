(** Proofs that numbers of type [usize] do not overflow when a signature is written. *)

From Coq Require Import String List Permutation.
From Verif Require Import Base Utf8 Canon BodyHash Header Parse QP Base64 Domain Signature Crypto TagList Format Sign Usize Cursor
  SpecText SpecCanon SpecHash SpecHeader SpecTag SpecDomain SpecSig SpecFormat SpecSign SpecOutput
  Utf8Proofs Base64Proofs BodyHashProofs HeaderCanonProofs HeaderProofs FormatProofs SignProofs OutputProofs WidthProofs DevRunProofs UsizeProofs UsizeFold Lib.
Import ListNotations.
Open Scope N_scope.

Lemma str_len_app : forall a b, str_len (a ++ b) = (str_len a + str_len b)%nat.
Proof. intros a b. unfold str_len. rewrite as_bytes_app, app_length. reflexivity. Qed.

Lemma str_len_chars : forall s, (length s <= str_len s)%nat.
Proof.
  induction s as [|c s IH]; [cbn; lia|]. change (c :: s) with ([c] ++ s). rewrite str_len_app, app_length. cbn [length].
  enough (1 <= str_len [c])%nat by lia. unfold str_len, as_bytes, utf8_char. cbn [flat_map app].
  repeat match goal with |- context [if ?b then _ else _] => destruct b end; cbn [app length]; lia.
Qed.

(** ** Where no sum is too large *)

Section Bound.
Variable add : nat -> nat -> outcome nat.
Variable M : nat.
Hypothesis Hadd : forall a b, (a + b <= M)%nat -> add a b = Val (a + b)%nat.
Variable idna : Idna.

(** from column [i] with [B] at least the column without what is in [out] *)
Definition fits (B B' : nat) (cur : list N * nat) {A} (m : outcome A) (a : A) (cur' : list N * nat) : Prop :=
  (snd cur <= B + str_len (fst cur))%nat ->
  (snd cur' <= B' + str_len (fst cur'))%nat /\ (str_len (fst cur) <= str_len (fst cur'))%nat
  /\ ((B' + str_len (fst cur') < M)%nat -> m = Val a).

Ltac lens := repeat (rewrite str_len_app || rewrite app_length).
Ltac adds := repeat (rewrite Hadd by lia; cbn [bind]).

Lemma advance_initial_fits : forall out i len fmt,
  let '(out', i') := advance_i_initial (out, i) len fmt in
  ((i' = i + len + 1 /\ str_len out' = str_len out + 1)%nat \/ (i' = str_len (f_indent fmt) + len /\ str_len out + 2 <= str_len out')%nat)
  /\ ((i + len + 1 <= M)%nat -> (str_len (f_indent fmt) + len <= M)%nat -> advance_i_initial_u add (out, i) len fmt = Val (out', i')).
Proof.
  intros out i len fmt. unfold advance_i_initial, advance_i_initial_u. destruct (Nat.leb _ _) eqn:L.
  - split; [left; lens; change (str_len [SP]) with 1%nat; lia|]. intros H1 H2. adds. rewrite L. adds. repeat f_equal. 
  - split; [right; lens; change (str_len CRLF) with 2%nat; lia|]. intros H1 H2. adds. rewrite L. adds. reflexivity.
Qed.

Lemma advance_fits : forall out i len fmt,
  let '(out', i') := advance_i (out, i) len fmt in
  ((i' = i + len /\ str_len out' = str_len out)%nat \/ (i' = str_len (f_indent fmt) + len /\ str_len out + 2 <= str_len out')%nat)
  /\ ((i + len <= M)%nat -> (str_len (f_indent fmt) + len <= M)%nat -> advance_i_u add (out, i) len fmt = Val (out', i')).
Proof.
  intros out i len fmt. unfold advance_i, advance_i_u. destruct (Nat.leb _ _) eqn:L.
  - split; [left; lia|]. intros H1 H2. adds. rewrite L. adds. reflexivity.
  - split; [right; lens; change (str_len CRLF) with 2%nat; lia|]. intros H1 H2. adds. rewrite L. adds. reflexivity.
Qed.

Lemma chunks_rest_fits : forall B cw ind fuel cur s, (str_len ind <= B)%nat ->
  fits B B cur (format_chunks_rest_u add fuel cw ind cur s) (format_chunks_rest fuel cw ind cur s) (format_chunks_rest fuel cw ind cur s).
Proof.
  intros B cw ind fuel. induction fuel as [|fuel IH]; intros [out i] s HB; cbn [format_chunks_rest format_chunks_rest_u].
  { intros H. split; [exact H|]. split; [lia|reflexivity]. }
  destruct (is_nil s); [intros H; split; [exact H|]; split; [lia|reflexivity]|].
  intros H. cbn [fst snd] in H. pose proof (str_len_chars (firstn cw s)) as X.
  specialize (IH (out ++ CRLF ++ ind ++ firstn cw s, (length (firstn cw s) + str_len ind)%nat) (skipn cw s) HB).
  destruct IH as (I1 & I2 & I3). { cbn [fst snd]. lens. lia. }
  cbn [fst snd] in *. rewrite !str_len_app in I2. split; [exact I1|]. split; [lia|]. intros L. adds. apply I3. exact L.
Qed.

Lemma chunks_fits : forall B cur fmt s, (str_len (f_indent fmt) <= B)%nat ->
  fits B B cur (format_chunks_u add cur fmt s) (format_chunks_into_string cur fmt s) (format_chunks_into_string cur fmt s).
Proof.
  intros B [out i] fmt s HB H. unfold format_chunks_u, format_chunks_into_string. cbn [fst snd] in H.
  set (n := Nat.min (f_width fmt - i) (length s)). pose proof (str_len_chars (firstn n s)) as X.
  destruct (chunks_rest_fits B (Nat.max (f_width fmt - str_len (f_indent fmt)) 1) (f_indent fmt) (length (skipn n s))
    (out ++ firstn n s, (i + length (firstn n s))%nat) (skipn n s) HB) as (I1 & I2 & I3).
  { cbn [fst snd]. lens. lia. }
  cbn [fst snd] in *. rewrite !str_len_app in I2. split; [exact I1|]. split; [lia|]. intros L.
  destruct (Nat.ltb 0 n) eqn:En.
  - adds. apply I3. exact L.
  - cbn [bind]. replace n with 0%nat in * by lia. cbn [firstn length] in *. rewrite Nat.add_0_r in *. apply I3. exact L.
Qed.

Lemma tag_fits : forall B cur fmt name value, (str_len (f_indent fmt) <= B)%nat ->
  fits B B cur (format_tag_u add cur fmt name value) (format_tag cur fmt name value) (format_tag cur fmt name value).
Proof.
  intros B [out i] fmt name value HB H. unfold format_tag_u, format_tag. cbn [fst snd] in H.
  pose proof (str_len_chars value) as X.
  pose proof (advance_initial_fits out i (str_len name + length value + (if f_last fmt then 1 else 2))%nat fmt) as A.
  destruct (advance_i_initial (out, i) (str_len name + length value + (if f_last fmt then 1 else 2))%nat fmt) as [out' i'].
  destruct A as (A1 & A2). cbn [fst snd]. lens. change (str_len [61]) with 1%nat.
  destruct (f_last fmt); change (str_len [59]) with 1%nat; change (str_len []) with 0%nat.
  - split; [lia|]. split; [lia|]. intros L. adds. rewrite A2 by lia. reflexivity.
  - split; [lia|]. split; [lia|]. intros L. adds. rewrite A2 by lia. reflexivity.
Qed.

Lemma names_fits : forall B fmt names out i, (str_len (f_indent fmt) <= B)%nat -> (i <= B + str_len out + (if is_nil names && f_last fmt then 0 else 1))%nat ->
  let '(out', i') := format_names (out, i) fmt names in
  (i' <= B + str_len out' + (if f_last fmt then 0 else 1))%nat /\ (str_len out <= str_len out')%nat
  /\ ((B + str_len out' < M)%nat -> format_names_u add (out, i) fmt names = Val (out', i')).
Proof.
  intros B fmt. induction names as [|n ns IH]; intros out i HB H; cbn [format_names format_names_u].
  { cbn [is_nil andb] in H. split; [exact H|]. split; [lia|reflexivity]. }
  cbn [is_nil andb] in H. pose proof (str_len_chars n) as X.
  pose proof (advance_fits (out ++ [58]) i (length n + (if is_nil ns && f_last fmt then 0 else 1))%nat fmt) as A.
  destruct (advance_i _ _ _) as [out1 i1]. destruct A as (A1 & A2). rewrite str_len_app in A1. change (str_len [58]) with 1%nat in A1.
  specialize (IH (out1 ++ n) i1 HB). destruct (format_names (out1 ++ n, i1) fmt ns) as [out' i'].
  destruct IH as (I1 & I2 & I3). { rewrite str_len_app. lia. }
  rewrite str_len_app in I2. split; [exact I1|]. split; [lia|]. intros L.
  destruct (is_nil ns && f_last fmt); adds; (rewrite A2 by lia; cbn [bind]; apply I3; exact L).
Qed.

Lemma tag_h_fits : forall B cur fmt value cur', (str_len (f_indent fmt) <= B)%nat -> format_tag_h cur fmt value = Val cur' ->
  fits B B cur (format_tag_h_u add cur fmt value) cur' cur'.
Proof.
  intros B [out i] fmt [|n ns] cur' HB E H; [discriminate|]. unfold format_tag_h in E. unfold format_tag_h_u. cbn [fst snd] in H.
  pose proof (str_len_chars n) as X.
  pose proof (advance_initial_fits out i (length n + (if is_nil ns && f_last fmt then 2 else 3))%nat fmt) as A.
  destruct (advance_i_initial _ _ _) as [out1 i1]. destruct A as (A1 & A2).
  pose proof (names_fits B fmt ns (out1 ++ lit "h=" ++ n) i1 HB) as I. destruct (format_names _ fmt ns) as [out' i'].
  injection E as <-. cbn [fst snd]. rewrite !str_len_app in I. change (str_len (lit "h=")) with 2%nat in I.
  destruct I as (I1 & I2 & I3). { destruct (is_nil ns && f_last fmt); lia. }
  lens. split; [destruct (f_last fmt); [|change (str_len [59]) with 1%nat]; lia|]. split; [lia|]. intros L.
  assert (exists k, (k = 2 \/ k = 3)%nat /\ (if is_nil ns && f_last fmt then 2 else 3)%nat = k) as (k & K & Ek).
  { eexists. split; [|reflexivity]. destruct (is_nil ns && f_last fmt); auto. }
  assert (length n + k + str_len out <= str_len out' + 2)%nat as Y.
  { lia. }
  rewrite Ek in *. adds. rewrite A2 by lia. cbn [bind]. rewrite I3 by lia. reflexivity.
Qed.

Lemma end_fits : forall B out i fmt,
  fits B B (out, i) (end_tag_u add (out, i) fmt) (if f_last fmt then (out, i) else (out ++ [59], (i + 1)%nat))
    (if f_last fmt then (out, i) else (out ++ [59], (i + 1)%nat)).
Proof.
  intros B out i fmt H. cbn [fst snd] in H. unfold end_tag_u. destruct (f_last fmt); cbn [fst snd].
  - split; [lia|]. split; [lia|reflexivity].
  - lens. change (str_len [59]) with 1%nat. split; [lia|]. split; [lia|]. intros L. adds. reflexivity.
Qed.

Lemma tag_bh_fits : forall B cur fmt value, (str_len (f_indent fmt) <= B)%nat ->
  fits B B cur (format_tag_bh_u add cur fmt value) (format_tag_bh cur fmt value) (format_tag_bh cur fmt value).
Proof.
  intros B [out i] fmt value HB H. unfold format_tag_bh_u, format_tag_bh. cbn [fst snd] in H.
  pose proof (advance_initial_fits out i 4 fmt) as A. destruct (advance_i_initial _ _ _) as [out1 i1]. destruct A as (A1 & A2).
  pose proof (chunks_fits B (out1 ++ lit "bh=", (i1 - 1)%nat) fmt (encode_base64 value) HB) as I.
  destruct (format_chunks_into_string _ _ _) as [out2 i2].
  destruct I as (I1 & I2 & I3). { cbn [fst snd]. rewrite str_len_app. change (str_len (lit "bh=")) with 3%nat. lia. }
  cbn [fst snd] in *. rewrite str_len_app in I2. change (str_len (lit "bh=")) with 3%nat in I2.
  destruct (end_fits B out2 i2 fmt I1) as (J1 & J2 & J3). cbn [fst snd] in J2.
  split; [exact J1|]. split; [lia|]. intros L. rewrite A2 by lia. cbn [bind]. rewrite I3 by lia. cbn [bind]. apply J3. exact L.
Qed.

Lemma tag_b_fits : forall B cur fmt est, (str_len (f_indent fmt) <= B)%nat ->
  fits B (B + est) cur (format_tag_name_b_u add cur fmt est) (format_tag_name_b cur fmt est) (fst (format_tag_name_b cur fmt est)).
Proof.
  intros B [out i] fmt est HB H. unfold format_tag_name_b_u, format_tag_name_b. cbn [fst snd] in H.
  pose proof (advance_initial_fits out i 3 fmt) as A. destruct (advance_i_initial _ _ _) as [out1 i1]. destruct A as (A1 & A2).
  cbv zeta. set (out2 := out1 ++ lit "b="). assert (str_len out2 = str_len out1 + 2)%nat as L2.
  { unfold out2. rewrite str_len_app. reflexivity. }
  set (cl := Nat.max (f_width fmt - str_len (f_indent fmt)) 1).
  set (r := (f_width fmt - (i1 - 1))%nat).
  set (last := if Nat.eqb ((est - r) mod cl) 0 then cl else ((est - r) mod cl)%nat).
  assert (Nat.leb est r = false -> last <= est)%nat as Hlast.
  { intros X. apply Nat.leb_gt in X. unfold last. assert (cl <> 0)%nat as Z by (unfold cl; lia).
    pose proof (Nat.mod_le (est - r) cl Z) as Y. destruct (Nat.eqb _ 0) eqn:Q; [|lia]. apply Nat.eqb_eq in Q.
    apply Nat.mod_divide in Q; [|exact Z]. apply Nat.divide_pos_le in Q; lia. }
  set (i2 := if Nat.leb est r then (i1 - 1 + est)%nat else (last + str_len (f_indent fmt))%nat).
  assert (i2 <= B + est + str_len out2)%nat as Hi2. { unfold i2. destruct (Nat.leb est r); lia. }
  destruct (end_fits (B + est) out2 i2 fmt Hi2) as (J1 & J2 & J3). cbn [fst snd] in *.
  split; [exact J1|]. split; [lia|]. intros L. rewrite A2 by lia. cbn [bind].
  fold out2. fold r. fold last.
  assert ((if Nat.leb est r then add (i1 - 1) est else add last (str_len (f_indent fmt))) = Val i2) as ->.
  { assert (i2 <= M)%nat as Y by lia. unfold i2 in Y |- *. destruct (Nat.leb est r); adds; reflexivity. }
  cbn [bind]. rewrite J3 by exact L. reflexivity.
Qed.

Lemma copied_fits : forall B fmt fields cur, (str_len (f_indent fmt) <= B)%nat ->
  fits B B cur (format_copied_u add cur fmt fields) (format_copied cur fmt fields) (format_copied cur fmt fields).
Proof.
  intros B fmt. induction fields as [|[n v] fields IH]; intros [out i] HB H; cbn [format_copied format_copied_u].
  { split; [exact H|]. split; [lia|reflexivity]. }
  cbn [fst snd] in H. pose proof (str_len_chars n) as X.
  assert (exists out1 i1, (if Nat.leb (f_width fmt) i then (out ++ CRLF ++ f_indent fmt, str_len (f_indent fmt)) else (out, i)) = (out1, i1)
    /\ (i1 <= B + str_len out1)%nat /\ (str_len out <= str_len out1)%nat) as (out1 & i1 & E1 & H1 & L1).
  { destruct (Nat.leb _ _); do 2 eexists; (split; [reflexivity|]); lens; lia. }
  rewrite E1.
  set (cur2 := if Nat.leb (i1 + 1 + (length n + 1)) (f_width fmt) then ((out1 ++ [124]) ++ n ++ [58], (i1 + 1 + (length n + 1))%nat)
        else ((out1 ++ [124]) ++ CRLF ++ f_indent fmt ++ n ++ [58], (str_len (f_indent fmt) + (length n + 1))%nat)).
  assert (snd cur2 <= B + str_len (fst cur2))%nat as H2.
  { unfold cur2. destruct (Nat.leb (i1 + 1 + (length n + 1)) (f_width fmt)); cbn [fst snd]; lens; change (str_len [124]) with 1%nat; change (str_len [58]) with 1%nat; lia. }
  assert (str_len out1 + length n + 2 <= str_len (fst cur2))%nat as L2.
  { unfold cur2. destruct (Nat.leb (i1 + 1 + (length n + 1)) (f_width fmt)); cbn [fst snd]; lens; change (str_len [124]) with 1%nat; change (str_len [58]) with 1%nat; lia. }
  destruct (chunks_fits B cur2 fmt (format_field_value (f_ascii fmt) v) HB H2) as (I1 & I2 & I3).
  destruct (IH (format_chunks_into_string cur2 fmt (format_field_value (f_ascii fmt) v)) HB I1) as (J1 & J2 & J3).
  cbn [fst snd]. split; [exact J1|]. split; [lia|]. intros L. adds.
  replace (if Nat.leb (i1 + 1 + (length n + 1)) (f_width fmt) then _ else _) with (Val cur2).
  2: { unfold cur2. destruct (Nat.leb (i1 + 1 + (length n + 1)) (f_width fmt)); adds; reflexivity. }
  cbn [bind]. rewrite I3 by lia. cbn [bind]. apply J3. exact L.
Qed.

Lemma tag_z_fits : forall B cur fmt value cur', (str_len (f_indent fmt) <= B)%nat -> format_tag_z cur fmt value = Val cur' ->
  fits B B cur (format_tag_z_u add cur fmt value) cur' cur'.
Proof.
  intros B [out i] fmt [|[n v] fields] cur' HB E H; [discriminate|]. unfold format_tag_z in E. unfold format_tag_z_u. cbn [fst snd] in H.
  pose proof (str_len_chars n) as X.
  pose proof (advance_initial_fits out i (length n + 3)%nat fmt) as A. destruct (advance_i_initial _ _ _) as [out1 i1]. destruct A as (A1 & A2).
  set (cur2 := (out1 ++ lit "z=" ++ n ++ [58], i1)) in *.
  assert (str_len (fst cur2) = str_len out1 + str_len n + 3)%nat as L2.
  { unfold cur2. cbn [fst]. lens. change (str_len (lit "z=")) with 2%nat. change (str_len [58]) with 1%nat. lia. }
  destruct (chunks_fits B cur2 fmt (format_field_value (f_ascii fmt) v) HB) as (I1 & I2 & I3). { cbn [snd cur2]. lia. }
  destruct (copied_fits B fmt fields _ HB I1) as (J1 & J2 & J3).
  destruct (format_copied _ fmt fields) as [out3 i3]. injection E as <-.
  destruct (end_fits B out3 i3 fmt J1) as (K1 & K2 & K3). cbn [fst snd] in *.
  split; [exact K1|]. split; [lia|]. intros L. adds. rewrite A2 by lia. cbn [bind].
  fold cur2. rewrite I3 by lia. cbn [bind]. rewrite J3 by lia. cbn [bind]. apply K3. exact L.
Qed.

Definition extra (est : nat) (name : str) : nat := if leqb name (lit "b") then est else 0%nat.

Lemma keep_fits : forall B cur (m : outcome (list N * nat)) cur' (ins : option nat), fits B B cur m cur' cur' ->
  fits B (B + 0) cur (let! c := m in Val (c, ins)) (cur', ins) cur'.
Proof.
  intros B cur m cur' ins F H. destruct (F H) as (F1 & F2 & F3). rewrite Nat.add_0_r. split; [exact F1|]. split; [exact F2|].
  intros L. rewrite (F3 L). reflexivity.
Qed.

Lemma one_fits : forall B u est fmt cur ins n cur' ins', (str_len (f_indent fmt) <= B)%nat ->
  format_one idna u est fmt cur ins n = Val (cur', ins') ->
  fits B (B + extra est n) cur (format_one_u add idna u est fmt cur ins n) (cur', ins') cur'.
Proof.
  intros B u est fmt cur ins n cur' ins' HB E. unfold format_one in E. unfold format_one_u, extra. cbv zeta in *.
  destruct (leqb n (lit "a")) eqn:Ea.
  { apply leqb_eq in Ea as ->. cbn [bind] in E. injection E as <- <-. apply keep_fits, tag_fits. exact HB. }
  destruct (leqb n (lit "b")) eqn:Eb.
  { intros H. destruct (tag_b_fits B cur fmt est HB H) as (F1 & F2 & F3).
    destruct (format_tag_name_b cur fmt est) as [c k]. injection E as <- <-. cbn [fst] in *. split; [exact F1|]. split; [exact F2|].
    intros L. rewrite (F3 L). reflexivity. }
  destruct (leqb n (lit "bh")). { cbn [bind] in E. injection E as <- <-. apply keep_fits, tag_bh_fits. exact HB. }
  destruct (leqb n (lit "c")).
  { cbn [bind] in E. injection E as <- <-. apply keep_fits. unfold format_tag_c_u, format_tag_c.
    destruct (c_header _), (c_body _); try (apply tag_fits; exact HB). intros H. split; [exact H|]. split; [lia|reflexivity]. }
  destruct (leqb n (lit "d")).
  { unfold format_tag_d in E. unfold format_tag_d_u. destruct (domain_form _ _ _) as [x|]; [|discriminate]. cbn [bind] in *. injection E as <- <-.
    apply keep_fits, tag_fits. exact HB. }
  destruct (leqb n (lit "h")).
  { destruct (format_tag_h _ _ _) as [x|] eqn:F; [|discriminate]. cbn [bind] in E. injection E as <- <-.
    apply keep_fits, tag_h_fits; assumption. }
  destruct (leqb n (lit "i")).
  { destruct (u_identity u) as [i|]; [|discriminate]. unfold format_tag_i in E. unfold format_tag_i_u.
    destruct (domain_form _ _ _) as [x|]; [|discriminate]. cbn [bind] in *. injection E as <- <-. apply keep_fits, tag_fits. exact HB. }
  destruct (leqb n (lit "l")).
  { destruct (u_body_length u); [|discriminate]. cbn [bind] in E. injection E as <- <-. apply keep_fits, tag_fits. exact HB. }
  destruct (leqb n (lit "s")).
  { unfold format_tag_s in E. unfold format_tag_s_u. destruct (domain_form _ _ _) as [x|]; [|discriminate]. cbn [bind] in *. injection E as <- <-.
    apply keep_fits, tag_fits. exact HB. }
  destruct (leqb n (lit "t")).
  { destruct (u_timestamp u); [|discriminate]. cbn [bind] in E. injection E as <- <-. apply keep_fits, tag_fits. exact HB. }
  destruct (leqb n (lit "v")).
  { cbn [bind] in E. injection E as <- <-. apply keep_fits, tag_fits. exact HB. }
  destruct (leqb n (lit "x")).
  { destruct (u_expiration u); [|discriminate]. cbn [bind] in E. injection E as <- <-. apply keep_fits, tag_fits. exact HB. }
  destruct (leqb n (lit "z")).
  { destruct (format_tag_z _ _ _) as [x|] eqn:F; [|discriminate]. cbn [bind] in E. injection E as <- <-.
    apply keep_fits, tag_z_fits; assumption. }
  destruct (find _ _) as [[t v]|]; [|discriminate]. cbn [bind] in E. injection E as <- <-. apply keep_fits, tag_fits. exact HB.
Qed.

Definition extras (est : nat) (names : list str) : nat := fold_right (fun n k => extra est n + k)%nat 0%nat names.

Lemma tags_fits : forall u est w ind asc names B cur ins cur' ins', (str_len ind <= B)%nat ->
  format_tags idna u est w ind asc cur ins names = Val (cur', ins') ->
  fits B (B + extras est names) cur (format_tags_u add idna u est w ind asc cur ins names) (cur', ins') cur'.
Proof.
  intros u est w ind asc. induction names as [|n ns IH]; intros B cur ins cur' ins' HB E; cbn [format_tags format_tags_u extras fold_right] in *.
  { injection E as <- <-. intros H. rewrite Nat.add_0_r. split; [exact H|]. split; [lia|reflexivity]. }
  destruct (format_one _ _ _ _ _ _ _) as [[cur1 ins1]|] eqn:E1; [|discriminate]. cbn [bind] in E.
  intros H. destruct (one_fits B u est (mkFmt w ind (is_nil ns) asc) _ _ _ _ _ HB E1 H) as (F1 & F2 & F3).
  assert (str_len ind <= B + extra est n)%nat as HB' by lia.
  destruct (IH (B + extra est n)%nat _ _ _ _ HB' E F1) as (G1 & G2 & G3). fold (extras est ns).
  rewrite Nat.add_assoc. split; [exact G1|]. split; [lia|]. intros L. rewrite F3 by lia. cbn [bind]. apply G3. exact L.
Qed.

Lemma extras_once : forall est names, NoDup names -> (extras est names <= est)%nat.
Proof.
  intros est names H. induction H as [|n ns Hn _ IH]; cbn [extras fold_right]; [lia|]. fold (extras est ns).
  unfold extra at 1. destruct (leqb n (lit "b")) eqn:Eb; [|lia]. apply leqb_eq in Eb as ->.
  enough (extras est ns = 0%nat) by lia. clear IH. induction ns as [|m ns IH]; [reflexivity|]. cbn [extras fold_right].
  fold (extras est ns). rewrite IH by (intros X; apply Hn; right; exact X). unfold extra.
  destruct (leqb m (lit "b")) eqn:Em; [|reflexivity]. apply leqb_eq in Em as ->. exfalso. apply Hn. left. reflexivity.
Qed.

Lemma format_fits : forall u f est v n, NoDup (compute_tag_names u (of_tag_order f)) ->
  format_without_signature idna u f est = Val (v, n) ->
  (str_len (of_header_name f) + str_len (of_indentation f) + str_len v + est + 1 < M)%nat ->
  format_without_signature_u add idna u f est = Val (v, n).
Proof.
  intros u f est v n ND E L. unfold format_without_signature in E. unfold format_without_signature_u. cbv zeta in *.
  destruct (is_nil _); [discriminate|].
  destruct (format_tags _ _ _ _ _ _ _ _ _) as [[[out i] ins]|] eqn:F; [|discriminate]. cbn [bind] in E.
  destruct ins as [k|]; [|discriminate]. injection E as <- <-. adds.
  pose proof (extras_once est _ ND) as X.
  destruct (tags_fits _ _ _ (of_indentation f) _ _ (str_len (of_header_name f) + 1 + str_len (of_indentation f))%nat _ _ _ _ ltac:(lia) F) as (_ & _ & G).
  { cbn [fst snd]. lia. }
  rewrite G by (cbn [fst]; lia). reflexivity.
Qed.

Lemma insert_fits : forall v n name sd w ind v', insert_signature_data v n name sd w ind = Val v' ->
  (str_len name + str_len ind + str_len v' + 1 < M)%nat -> insert_signature_data_u add v n name sd w ind = Val v'.
Proof.
  intros v n name sd w ind v' E L. unfold insert_signature_data in E. unfold insert_signature_data_u. cbv zeta in *.
  destruct (split_at_byte n v) as [[pre post]|]; [|discriminate].
  destruct (rev (split_crlf pre)) as [|l more] eqn:R; [discriminate|].
  assert (length l <= str_len pre)%nat as Hl.
  { pose proof (f_equal (@rev _) R) as R'. rewrite rev_involutive in R'. cbn [rev] in R'.
    assert (length l <= length pre)%nat; [|pose proof (str_len_chars pre); lia].
    destruct (rev more) as [|a b] eqn:Em; cbn [app] in R'.
    - apply (split_crlf_sound (length pre)) in R'; [|lia]. unfold unlines in R'. cbn [map concat] in R'. rewrite app_nil_r in R'. subst. lia.
    - apply (split_crlf_sound (length pre)) in R'; [|lia]. rewrite <- unlines_snoc in R'. rewrite R', !app_length. lia. }
  set (len := if is_nil more then (str_len name + length l + 1)%nat else length l) in *.
  assert (len <= str_len name + 1 + str_len pre)%nat as Hlen. { unfold len. destruct (is_nil more); lia. }
  set (fmt := mkFmt w ind false false) in *.
  pose proof (chunks_fits (str_len name + 1 + str_len pre + str_len ind) ([], len) fmt (encode_base64 sd)) as F.
  destruct (format_chunks_into_string ([], len) fmt (encode_base64 sd)) as [res j].
  injection E as <-. rewrite !str_len_app in L.
  destruct F as (_ & _ & F3); [cbn [f_indent fmt]; lia|cbn [fst snd]; lia|]. cbn [fst snd] in F3.
  replace (if is_nil more then _ else _) with (Val len).
  2: { unfold len. destruct (is_nil more); [adds|]; reflexivity. }
  cbn [bind]. rewrite F3 by lia. reflexivity.
Qed.

End Bound.

(** ** Signing *)

Lemma layout_letters_length : forall w ind s i, (length s <= str_len (fst (layout w ind i (letters s))))%nat.
Proof.
  intros w ind s i. pose proof (layout_laid w ind (letters s) i) as L. remember (fst (layout w ind i (letters s))) as t. clear Heqt i.
  revert t L. induction s as [|c s IH]; intros t L; [cbn; lia|]. unfold letters in L. cbn [map] in L. inv L.
  apply IH in H3. rewrite !str_len_app. cbn [length p_text inner]. pose proof (str_len_chars [c]) as X. cbn [length] in X. lia.
Qed.

Section Signing.
Variable E : Env.
Notation C := (env_crypto E).
Notation idna := (env_idna E).

Lemma perform_with_val : forall produce' now r headers body results res, crypto_typed E -> request_typed E r -> header_fields headers ->
  (exists f, In f headers /\ same_name (fst f) (lit "From")) -> first_of (request_checks E r) None ->
  results_get results (key_of E r) = Some (expected_result (hash_fn C) false (key_of E r) body) ->
  (forall u, to_sign E now r headers body u -> produce_signature E u (r_signing_key E r) (r_format E r) headers = Val res ->
     produce' u (r_signing_key E r) (r_format E r) headers = Val res) ->
  perform_with E (produce_signature E) now r headers results = Val res -> perform_with E produce' now r headers results = Val res.
Proof.
  intros produce' now r headers body results res HC T Hh HF H HR HP.
  pose proof (accepted E r T H) as (A1 & A2 & A3 & A4 & A5 & A6 & A7 & A8 & A9 & A10).
  pose proof (accepted_format E r T H) as Hfmt.
  unfold perform_with. rewrite A10. fold (key_of E r). rewrite HR.
  set (cb := canonical_body (c_body (r_canonicalization E r)) body).
  assert (match r_body_length E r with
    | ExactLen n => N.of_nat (length cb) < n /\ expected_result (hash_fn C) false (key_of E r) body = Err InsufficientInput
    | _ => False end \/
    exists hashed len, expected_result (hash_fn C) false (key_of E r) body = Ok (hash_fn C (alg_hash (r_algorithm E r)) hashed, len)
      /\ signed_body E r body hashed (match r_body_length E r with NoLimit => None | _ => Some len end)) as X.
  { unfold expected_result, key_of, request_key, limit_of. fold cb.
    destruct (r_body_length E r) as [| |n] eqn:El.
    - right. do 2 eexists. split; [reflexivity|]. apply sb_all. exact El.
    - right. do 2 eexists. split; [reflexivity|]. apply sb_content. exact El.
    - destruct (N.of_nat (length cb) <? n) eqn:En; [left; split; [lia|reflexivity]|]. right. cbn [andb].
      do 2 eexists. split; [reflexivity|]. apply (sb_exact E r body n _ (skipn (N.to_nat n) cb)); [exact El| |].
      + rewrite firstn_length. lia.
      + fold cb. symmetry. apply firstn_skipn. }
  destruct X as [X|(hashed & len & Eh & Hb)].
  { destruct (r_body_length E r) as [| |n] eqn:El; [tauto|tauto|]. destruct X as [X ->]. exact (fun x => x). }
  rewrite Eh.
  set (l := match r_body_length E r with NoLimit => None | _ => Some len end) in *.
  assert (match r_body_length E r with NoLimit => Some None | _ => if len <=? u64_max then Some (Some len) else None end
          = match l with Some n => if n <=? u64_max then Some l else None | None => Some l end) as ->.
  { unfold l. destruct (r_body_length E r); reflexivity. }
  destruct (match l with Some n => n <=? u64_max | None => true end) eqn:Hl.
  2: { destruct l as [n|] eqn:Ell; [|discriminate]. rewrite Hl. exact (fun x => x). }
  assert (match l with Some n => if n <=? u64_max then Some l else None | None => Some l end = Some l) as ->.
  { destruct l; [rewrite Hl|]; reflexivity. }
  set (names := match r_header_selection E r with Auto => select_signed_headers headers | Manual h => h end).
  assert (signed_names E r headers names) as Hn.
  { unfold names. destruct (r_header_selection E r) as [|ns] eqn:Es; [|apply sn_manual; exact Es].
    unfold select_signed_headers, select_headers.
    assert (selected (fun f : HeaderField => In (lower (fst f)) signed_by_default) headers
      (filter (fun f => existsb (name_eqb (fst f)) default_signed_headers) headers)) as X.
    { apply selected_filter. intros f _.
      change signed_by_default with (map lower default_signed_headers).
      rewrite existsb_exists, in_map_iff. split; intros (n & N1 & N2); exists n.
      - rewrite name_eqb_same in N2. apply leqb_eq in N2. auto.
      - split; [exact N2|]. rewrite name_eqb_same. apply leqb_eq. auto. }
    replace (filter _ (map fst (rev headers))) with
      (rev (map fst (filter (fun f : HeaderField => existsb (name_eqb (fst f)) default_signed_headers) headers))).
    - apply sn_auto; assumption.
    - rewrite map_rev. clear. induction headers as [|f hs IH]; [reflexivity|]. cbn [map rev filter].
      rewrite filter_app, <- IH. cbn [filter]. destruct (existsb _ _); cbn [map rev]; [reflexivity|rewrite app_nil_r; reflexivity]. }
  destruct (negb _); [exact (fun x => x)|]. destruct (existsb (contains_char 59) names); [exact (fun x => x)|].
  cbv zeta.
  set (copied := if r_copy_headers E r then prepare_copied_headers headers names else []).
  assert (copied_headers E r headers names copied) as Hc.
  { unfold copied_headers, copied. destruct (r_copy_headers E r); [|reflexivity]. unfold prepare_copied_headers.
    apply selected_filter. intros f _. rewrite existsb_exists. split; intros (n & N1 & N2); exists n; split; auto.
    - rewrite name_eqb_same in N2. apply leqb_eq in N2. exact N2.
    - rewrite name_eqb_same. apply leqb_eq. exact N2. }
  match goal with |- context [produce_signature E ?x] => set (u := x) end.
  assert (to_sign E now r headers body u) as Hu.
  { exists hashed, l, names, copied. split; [exact Hb|]. split; [exact Hn|]. split; [exact Hc|].
    unfold u. unfold saturating_add, time_of. destruct (r_valid_duration E r), (r_timestamp E r); reflexivity. }
  exact (HP u Hu).
Qed.


Section Counted.
Variables add mul : nat -> nat -> outcome nat.

Lemma perform_with_counted : forall now r headers results,
  perform_signing_u add mul E now r headers results = perform_with E (produce_signature_u add mul E) now r headers results.
Proof. reflexivity. Qed.

(** what must not be too large *)
Definition size_ok (M : nat) (f : OutputFormat) (res : result SigningOutput SigningError) : Prop :=
  match res with
  | Ok o => (str_len (of_header_name f) + str_len (of_indentation f) + str_len (so_header_value o) + 1 < M)%nat
  | Err SigningFailure => False
  | Err _ => True
  end.

Lemma produce_fits : forall M u key f headers res,
  (forall a b, (a + b <= M)%nat -> add a b = Val (a + b)%nat) -> (forall a b, (a * b <= M)%nat -> mul a b = Val (a * b)%nat) ->
  signature_sizes C -> crypto_typed E -> formattable idna u -> format_ok f ->
  produce_signature E u key f headers = Val res -> size_ok M f res -> produce_signature_u add mul E u key f headers = Val res.
Proof.
  intros M u key f headers res HA HM (Z1 & Z2) HC Hu Hf P S. unfold produce_signature in P. unfold produce_signature_u, estimate_b_tag_length_u.
  destruct (format_spec idna u f (estimate_b_tag_length E key) Hu Hf) as (pre & post & _ & F). rewrite F in P. cbn [bind] in P. cbv zeta in *.
  destruct (negb _) eqn:K; [discriminate|].
  destruct (sign_hash E key _ _) as [sd|] eqn:G; [|injection P as <-; destruct S].
  destruct (column_exists (of_header_name f) pre) as (n & Hn).
  destruct (insert_signature_data (pre ++ post) (str_len pre) _ sd _ _) as [v'|] eqn:I; [|discriminate]. cbn [bind] in P. injection P as <-.
  cbn [size_ok so_header_value] in S. pose proof (insert_spec f pre post sd n Hf Hn) as I'. rewrite I in I'. injection I' as ->.
  set (l := fst (layout _ _ n _)) in *. rewrite !str_len_app in S.
  assert (length (encode_base64 sd) = estimate_b_tag_length E key /\ length sd = sk_signature_length C key) as (Hb & Hs).
  { assert (length sd = sk_signature_length C key) as Hs.
    { destruct key; cbn [sign_hash sk_signature_length] in *; [eapply Z1; exact G|]. injection G as <-. apply Z2. }
    split; [|exact Hs]. unfold estimate_b_tag_length. rewrite <- Hs. apply base64_length. apply encode_base64_spec.
    destruct HC as (_ & H1 & H2). destruct key; cbn [sign_hash] in G; [eapply H1; exact G|]. injection G as <-. apply H2. }
  pose proof (layout_letters_length (of_line_width f) (of_indentation f) (encode_base64 sd) n) as Hl. fold l in Hl. rewrite Hb in Hl.
  unfold estimate_b_tag_length in *. set (k := sk_signature_length C key) in *. set (q := ((k + 2) / 3)%nat) in *.
  assert (k <= q * 4)%nat as Hk. { unfold q. pose proof (Nat.div_mod (k + 2) 3 ltac:(lia)). pose proof (Nat.mod_upper_bound (k + 2) 3 ltac:(lia)). lia. }
  rewrite HA by lia. cbn [bind]. fold q. rewrite HM by lia. cbn [bind].
  rewrite (format_fits add M HA idna u f (q * 4)%nat (pre ++ post) (str_len pre)).
  - cbn [bind]. rewrite ?K, G. rewrite (insert_fits add M HA _ _ _ _ _ _ _ I) by (rewrite !str_len_app; lia). reflexivity.
  - rewrite default_names_eq. change (NoDup (tag_names u f)).
    eapply Permutation_NoDup; [symmetry; apply tag_names_perm; exact Hf|]. eapply default_names_nodup; eassumption.
  - exact F.
  - rewrite str_len_app. lia.
Qed.

End Counted.

Theorem sign_fits : forall checks order headers rs chunks clock o, signature_sizes C -> crypto_typed E ->
  Forall (request_typed E) rs -> header_fields headers -> (forall l, Permutation (order l) l) ->
  N.of_nat (length (concat chunks)) + 2 <= env_usize_max E ->
  sign_message E order headers rs chunks clock = Val o ->
  (forall results j r res, o = Ok results -> nth_error rs j = Some r -> nth_error results j = Some res ->
     size_ok (N.to_nat (env_usize_max E)) (r_format E r) res) ->
  sign_message_counted E checks order headers rs chunks clock = Val o.
Proof.
  intros checks order headers rs chunks clock o Z HC T Hh Ho L S F. rewrite <- (sign_short E checks) in S by exact L.
  unfold sign_message_usize in S. unfold sign_message_counted. cbv zeta.
  destruct (prepare_spec E order headers rs T) as (e & H & Ep). rewrite Ep in *.
  destruct e as [e|]; cbn [bind] in *; [exact S|]. cbv zeta in *. cbn [sg_body_hasher sg_headers sg_tasks] in *.
  set (b := fold_left bhb_register (map (key_of E) rs) (bhb_new false)) in *.
  pose proof (hashed_short (env_usize_max E) checks (hash_fn C) b (order (bhb_registrations b)) chunks L) as X.
  destruct (hash_body_results (hash_fn C) b (order (bhb_registrations b)) chunks) as (sts & bh & H1 & _ & H2).
  rewrite H1 in X. cbn [bind] in X. rewrite H2 in X.
  destruct (hash_chunks_usize _ _ _ _) as [bh'|]; [|discriminate]. cbn [bind] in *. rewrite X in *. cbn [bind] in *.
  apply checks_none in H as (HF & _ & Hr). clear X H1 H2.
  match type of S with context [sign_tasks E clock 0 headers ?x rs] => set (results := x) in * end.
  assert (Forall (fun r => request_typed E r /\ first_of (request_checks E r) None
    /\ results_get results (key_of E r) = Some (expected_result (hash_fn C) false (key_of E r) (concat chunks))) rs) as X.
  { apply Forall_forall. intros r Hi. split; [rewrite Forall_forall in T; auto|].
    split; [rewrite Forall_forall in Hr; auto|]. unfold results. rewrite results_get_map.
    unfold b at 2. rewrite register_all_fot.
    assert (existsb (key_eqb (key_of E r)) (order (bhb_registrations b)) = true) as ->; [|reflexivity].
    apply existsb_key_In. rewrite (Permutation_in' eq_refl (Ho _)). unfold b. rewrite register_all_in. left.
    apply in_map. exact Hi. }
  clearbody results. set (add := usize_op (env_usize_max E) checks N.add). set (mul := usize_op (env_usize_max E) checks N.mul).
  assert (forall x y, (x + y <= N.to_nat (env_usize_max E))%nat -> add x y = Val (x + y)%nat) as HA.
  { intros x y Hxy. unfold add, usize_op, usize. replace (N.of_nat x + N.of_nat y <=? env_usize_max E) with true by lia. cbn [bind]. f_equal. lia. }
  assert (forall x y, (x * y <= N.to_nat (env_usize_max E))%nat -> mul x y = Val (x * y)%nat) as HM.
  { intros x y Hxy. unfold mul, usize_op, usize. rewrite <- Nat2N.inj_mul.
    replace (N.of_nat (x * y) <=? env_usize_max E) with true by (generalize dependent (x * y)%nat; intros; lia). cbn [bind]. f_equal. apply Nat2N.id. }
  clearbody add mul.
  destruct (sign_tasks E clock 0 headers results rs) as [res|] eqn:G; [|discriminate]. cbn [bind] in S. injection S as <-.
  specialize (F res).
  assert (forall j r x, nth_error rs j = Some r -> nth_error res j = Some x -> size_ok (N.to_nat (env_usize_max E)) (r_format E r) x) as F'.
  { intros j r x. apply F. reflexivity. }
  clear F T Hr Ep b bh bh' sts. enough (sign_tasks_u add mul E clock 0 headers results rs = Val res) as -> by reflexivity.
  revert res G F'. generalize 0%nat. induction X as [|r rs (X1 & X2 & X3) _ IH]; intros i res G F'; cbn [sign_tasks_u sign_tasks] in *; [exact G|].
  destruct (perform_signing E (clock i) r headers results) as [y|] eqn:Y; [|discriminate]. cbn [bind] in G.
  destruct (sign_tasks E clock (S i) headers results rs) as [ys|] eqn:Ys; [|discriminate]. cbn [bind] in G. injection G as <-.
  rewrite perform_with_counted, (perform_with_val _ (clock i) r headers (concat chunks) results y HC X1 Hh HF X2 X3); [|..|exact Y].
  - cbn [bind]. rewrite (IH (S i) ys Ys); [reflexivity|]. intros j r' x Hj Hx. exact (F' (S j) r' x Hj Hx).
  - intros u Hu HP. apply (produce_fits add mul (N.to_nat (env_usize_max E))); try assumption.
    + exact (to_sign_formattable E (clock i) r headers (concat chunks) u HC X1 Hh HF X2 Hu).
    + exact (accepted_format E r X1 X2).
    + exact (F' 0%nat r y eq_refl eq_refl).
Qed.

End Signing.

(** ** Where sums are checked *)

Section Checked.
Variables add mul : nat -> nat -> outcome nat.
Hypothesis Hadd : forall a b c, add a b = Val c -> c = (a + b)%nat.
Hypothesis Hmul : forall a b c, mul a b = Val c -> c = (a * b)%nat.

Ltac sum H :=
  match type of H with
  | context [add ?a ?b] => let e := fresh "e" in let S := fresh "S" in
      destruct (add a b) as [e|] eqn:S; cbn [bind] in H; [apply Hadd in S; subst e|discriminate H]
  end.

Lemma advance_initial_checked : forall cur len fmt c, advance_i_initial_u add cur len fmt = Val c -> advance_i_initial cur len fmt = c.
Proof.
  intros [out i] len fmt c H. unfold advance_i_initial_u in H. unfold advance_i_initial. sum H. sum H.
  destruct (Nat.leb _ _); repeat sum H; injection H as <-; reflexivity.
Qed.

Lemma advance_checked : forall cur len fmt c, advance_i_u add cur len fmt = Val c -> advance_i cur len fmt = c.
Proof.
  intros [out i] len fmt c H. unfold advance_i_u in H. unfold advance_i. sum H.
  destruct (Nat.leb _ _); repeat sum H; injection H as <-; reflexivity.
Qed.

Lemma chunks_rest_checked : forall cw ind fuel cur s c, format_chunks_rest_u add fuel cw ind cur s = Val c -> format_chunks_rest fuel cw ind cur s = c.
Proof.
  intros cw ind fuel. induction fuel as [|fuel IH]; intros [out i] s c H; cbn [format_chunks_rest format_chunks_rest_u] in *; [injection H as <-; reflexivity|].
  destruct (is_nil s); [injection H as <-; reflexivity|]. sum H. apply IH. exact H.
Qed.

Lemma chunks_checked : forall cur fmt s c, format_chunks_u add cur fmt s = Val c -> format_chunks_into_string cur fmt s = c.
Proof.
  intros [out i] fmt s c H. unfold format_chunks_u in H. unfold format_chunks_into_string. cbv zeta in *.
  set (n := Nat.min (f_width fmt - i) (length s)) in *. destruct (Nat.ltb 0 n) eqn:En.
  - sum H. apply chunks_rest_checked in H. exact H.
  - cbn [bind] in H. apply chunks_rest_checked in H. replace n with 0%nat in * by (symmetry; apply Nat.ltb_ge in En; apply Nat.le_0_r; exact En).
    cbn [firstn length] in *. rewrite Nat.add_0_r. exact H.
Qed.

Ltac part H L :=
  match type of H with
  | bind ?m _ = _ => let c := fresh "c" in let S := fresh "S" in destruct m as [c|] eqn:S; cbn [bind] in H; [apply L in S; cbv zeta; rewrite S; clear S; cbn [bind]|discriminate H]
  end.

Lemma tag_checked : forall cur fmt name value c, format_tag_u add cur fmt name value = Val c -> format_tag cur fmt name value = c.
Proof.
  intros cur fmt name value c H. unfold format_tag_u in H. unfold format_tag. sum H. sum H. part H advance_initial_checked.
  cbv zeta. destruct c0 as [out i]. injection H as <-. reflexivity.
Qed.

Lemma names_checked : forall fmt names cur c, format_names_u add cur fmt names = Val c -> format_names cur fmt names = c.
Proof.
  intros fmt. induction names as [|n ns IH]; intros [out i] c H; cbn [format_names format_names_u] in *; [injection H as <-; reflexivity|].
  sum H. part H advance_checked. cbv zeta. destruct c0 as [out1 i1]. apply IH. exact H.
Qed.

Lemma tag_h_checked : forall cur fmt value c, format_tag_h_u add cur fmt value = Val c -> format_tag_h cur fmt value = Val c.
Proof.
  intros cur fmt [|n ns] c H; [discriminate|]. unfold format_tag_h_u in H. unfold format_tag_h. sum H. part H advance_initial_checked.
  cbv zeta. destruct c0 as [out1 i1]. part H names_checked. destruct c0 as [out2 i2]. exact H.
Qed.

Lemma end_checked : forall out i fmt c, end_tag_u add (out, i) fmt = Val c -> (if f_last fmt then (out, i) else (out ++ [59], (i + 1)%nat)) = c.
Proof. intros out i fmt c H. unfold end_tag_u in H. destruct (f_last fmt); repeat sum H; injection H as <-; reflexivity. Qed.

Lemma tag_bh_checked : forall cur fmt value c, format_tag_bh_u add cur fmt value = Val c -> format_tag_bh cur fmt value = c.
Proof.
  intros cur fmt value c H. unfold format_tag_bh_u in H. unfold format_tag_bh. cbv zeta in *. part H advance_initial_checked.
  destruct c0 as [out1 i1]. part H chunks_checked. destruct c0 as [out2 i2]. apply end_checked. exact H.
Qed.

Lemma tag_b_checked : forall cur fmt est c, format_tag_name_b_u add cur fmt est = Val c -> format_tag_name_b cur fmt est = c.
Proof.
  intros cur fmt est c H. unfold format_tag_name_b_u in H. unfold format_tag_name_b. cbv zeta in *. part H advance_initial_checked.
  destruct c0 as [out1 i1]. destruct (Nat.leb est _); sum H; part H end_checked; injection H as <-; reflexivity.
Qed.

Lemma copied_checked : forall fmt fields cur c, format_copied_u add cur fmt fields = Val c -> format_copied cur fmt fields = c.
Proof.
  intros fmt. induction fields as [|[n v] fields IH]; intros [out i] c H; cbn [format_copied format_copied_u] in *; [injection H as <-; reflexivity|].
  cbv zeta in *. destruct (if Nat.leb (f_width fmt) i then _ else _) as [out1 i1].
  sum H. sum H. sum H. destruct (Nat.leb (i1 + 1 + (length n + 1)) (f_width fmt)); cbn [bind] in H; repeat sum H;
    (match type of H with bind ?m _ = _ => destruct m as [c1|] eqn:F; cbn [bind] in H; [apply chunks_checked in F|discriminate H] end;
     rewrite F; apply IH; exact H).
Qed.

Lemma tag_z_checked : forall cur fmt value c, format_tag_z_u add cur fmt value = Val c -> format_tag_z cur fmt value = Val c.
Proof.
  intros cur fmt [|[n v] fields] c H; [discriminate|]. unfold format_tag_z_u in H. unfold format_tag_z. cbv zeta in *. sum H.
  part H advance_initial_checked. destruct c0 as [out1 i1]. part H chunks_checked. part H copied_checked.
  destruct c1 as [out2 i2]. apply end_checked in H. rewrite H. reflexivity.
Qed.

Section Idna.
Variable idna : Idna.

Lemma one_checked : forall u est fmt cur ins n c, format_one_u add idna u est fmt cur ins n = Val c -> format_one idna u est fmt cur ins n = Val c.
Proof.
  intros u est fmt cur ins n c H. unfold format_one_u in H. unfold format_one. cbv zeta in *.
  destruct (leqb n (lit "a")). { unfold format_tag_a. part H tag_checked. exact H. }
  destruct (leqb n (lit "b")). { part H tag_b_checked. exact H. }
  destruct (leqb n (lit "bh")). { part H tag_bh_checked. exact H. }
  destruct (leqb n (lit "c")).
  { unfold format_tag_c_u in H. unfold format_tag_c.
    destruct (c_header _), (c_body _); [exact H| | |]; (part H tag_checked; exact H). }
  destruct (leqb n (lit "d")).
  { unfold format_tag_d_u in H. unfold format_tag_d. destruct (domain_form _ _ _) as [x|]; [|discriminate]. cbn [bind] in *. part H tag_checked. exact H. }
  destruct (leqb n (lit "h")). { part H tag_h_checked. exact H. }
  destruct (leqb n (lit "i")).
  { destruct (u_identity u) as [i|]; [|discriminate]. unfold format_tag_i_u in H. unfold format_tag_i.
    destruct (domain_form _ _ _) as [x|]; [|discriminate]. cbn [bind] in *. cbv zeta in *. part H tag_checked. exact H. }
  destruct (leqb n (lit "l")). { destruct (u_body_length u); [|discriminate]. unfold format_tag_l. part H tag_checked. exact H. }
  destruct (leqb n (lit "s")).
  { unfold format_tag_s_u in H. unfold format_tag_s. destruct (domain_form _ _ _) as [x|]; [|discriminate]. cbn [bind] in *. part H tag_checked. exact H. }
  destruct (leqb n (lit "t")). { destruct (u_timestamp u); [|discriminate]. unfold format_tag_t. part H tag_checked. exact H. }
  destruct (leqb n (lit "v")). { unfold format_tag_v. part H tag_checked. exact H. }
  destruct (leqb n (lit "x")). { destruct (u_expiration u); [|discriminate]. unfold format_tag_x. part H tag_checked. exact H. }
  destruct (leqb n (lit "z")). { part H tag_z_checked. exact H. }
  destruct (find _ _) as [[t v]|]; [|discriminate]. part H tag_checked. exact H.
Qed.

Lemma tags_checked : forall u est w ind asc names cur ins c, format_tags_u add idna u est w ind asc cur ins names = Val c ->
  format_tags idna u est w ind asc cur ins names = Val c.
Proof.
  intros u est w ind asc. induction names as [|n ns IH]; intros cur ins c H; cbn [format_tags format_tags_u] in *; [exact H|].
  part H one_checked. cbn [bind]. destruct c0 as [cur1 ins1]. apply IH. exact H.
Qed.

Lemma format_checked : forall u f est c, format_without_signature_u add idna u f est = Val c -> format_without_signature idna u f est = Val c.
Proof.
  intros u f est c H. unfold format_without_signature_u in H. unfold format_without_signature. cbv zeta in *.
  destruct (is_nil _); [discriminate|]. sum H. part H tags_checked. exact H.
Qed.

End Idna.

Lemma insert_checked : forall v n name sd w ind c, insert_signature_data_u add v n name sd w ind = Val c -> insert_signature_data v n name sd w ind = Val c.
Proof.
  intros v n name sd w ind c H. unfold insert_signature_data_u in H. unfold insert_signature_data. cbv zeta in *.
  destruct (split_at_byte n v) as [[pre post]|]; [|discriminate]. destruct (rev (split_crlf pre)) as [|l more]; [discriminate|].
  destruct (is_nil more); cbn [bind] in H; repeat sum H; part H chunks_checked.
  - exact H.
  - exact H.
Qed.

Lemma produce_checked : forall E u key f headers c, produce_signature_u add mul E u key f headers = Val c -> produce_signature E u key f headers = Val c.
Proof.
  intros E u key f headers c H. unfold produce_signature_u, estimate_b_tag_length_u in H. unfold produce_signature. sum H.
  match type of H with bind ?m _ = _ => destruct m as [k|] eqn:K; [apply Hmul in K; subst k|discriminate H] end. cbn [bind] in H.
  change (_ / 3 * 4)%nat with (estimate_b_tag_length E key) in H.
  part H format_checked. cbn [bind]. destruct c0 as [v n]. cbv zeta in *. destruct (negb _); [exact H|].
  destruct (sign_hash _ _ _ _); [|exact H]. part H insert_checked. exact H.
Qed.

Lemma perform_checked : forall E now r headers results c, perform_signing_u add mul E now r headers results = Val c -> perform_signing E now r headers results = Val c.
Proof.
  intros E now r headers results c H. unfold perform_signing_u in H. unfold perform_signing.
  destruct (bl_to_usize _ _); [|exact H]. destruct (results_get _ _) as [[[bh len]|[]]|]; try exact H.
  destruct (match r_body_length E r with NoLimit => _ | _ => _ end); [|exact H].
  cbv zeta in *. destruct (negb _); [exact H|]. destruct (existsb _ _); [exact H|]. apply produce_checked. exact H.
Qed.

Lemma tasks_checked : forall E clock headers results ts i c, sign_tasks_u add mul E clock i headers results ts = Val c ->
  sign_tasks E clock i headers results ts = Val c.
Proof.
  intros E clock headers results. induction ts as [|t ts IH]; intros i c H; cbn [sign_tasks_u sign_tasks] in *; [exact H|].
  part H perform_checked. cbn [bind]. part H IH. exact H.
Qed.

End Checked.

Theorem counted_checked : forall E order headers rs chunks clock o,
  sign_message_counted E true order headers rs chunks clock = Val o -> sign_message E order headers rs chunks clock = Val o.
Proof.
  intros E order headers rs chunks clock o H. apply sign_checked. unfold sign_message_counted in H. unfold sign_message_usize.
  destruct (prepare_signing E order headers rs) as [[s|e]|]; cbn [bind] in *; try exact H. cbv zeta in H.
  destruct (hash_chunks_usize _ _ _ _) as [bh|]; [|discriminate]. cbn [bind] in *.
  destruct (bh_finish_usize _ _ _ _) as [res|]; [|discriminate]. cbn [bind] in *.
  destruct (sign_tasks_u _ _ _ _ _ _ _ _) as [x|] eqn:X; [|discriminate]. apply tasks_checked in X.
  - rewrite X. exact H.
  - intros a b c Y. unfold usize_op, usize in Y. destruct (_ <=? _); [|discriminate]. cbn [bind] in Y. injection Y as <-. lia.
  - intros a b c Y. unfold usize_op, usize in Y. destruct (_ <=? _); [|discriminate]. cbn [bind] in Y. injection Y as <-.
    rewrite <- Nat2N.inj_mul. apply Nat2N.id.
Qed.

Theorem sign_counted : forall E checks order headers rs chunks clock o, signature_sizes (env_crypto E) -> crypto_typed E ->
  Forall (request_typed E) rs -> header_fields headers -> (forall l, Permutation (order l) l) ->
  N.of_nat (length (concat chunks)) + 2 <= env_usize_max E ->
  sign_message E order headers rs chunks clock = Val o ->
  (forall results j r res, o = Ok results -> nth_error rs j = Some r -> nth_error results j = Some res ->
     match res with
     | Ok o => N.of_nat (length (as_bytes (so_header_name o))) + N.of_nat (length (as_bytes (so_header_value o)))
                 + N.of_nat (length (as_bytes (of_indentation (r_format E r)))) + 2 <= env_usize_max E
     | Err SigningFailure => False
     | Err _ => True
     end) ->
  sign_message_counted E checks order headers rs chunks clock = Val o.
Proof.
  intros E checks order headers rs chunks clock o Z HC T Hh Ho L S F. apply sign_fits; try assumption.
  intros results j r res -> Hr Hres. specialize (F results j r res eq_refl Hr Hres). destruct res as [x|[]]; cbn [size_ok]; auto.
  assert (so_header_name x = of_header_name (r_format E r)) as N.
  { assert (signed_output E headers chunks clock j r x) as SO.
    { split; [exact HC|]. split; [exact Hh|]. exists order, rs, results. auto. }
    destruct (signed_output_of _ _ _ _ _ _ _ SO) as (pre & post & n & b64 & O).
    rewrite (oo_o _ _ _ _ _ _ _ _ _ _ _ _ O). reflexivity. }
  rewrite N in F. unfold str_len. lia.
Qed.
