(** Proofs about canonicalization. *)

From Verif Require Import Lib Utf8 Canon SpecCanon.

(** ** Chunks *)

Lemma canonicalize_chunk_app : forall a b bc,
  canonicalize_chunk bc (a ++ b) =
  let! (o1, bc1) := canonicalize_chunk bc a in
  let! (o2, bc2) := canonicalize_chunk bc1 b in
  Val (o1 ++ o2, bc2).
Proof.
  induction a as [|x a IH]; intros b bc; simpl.
  - destruct (canonicalize_chunk bc b) as [[o bc2]|]; reflexivity.
  - destruct (canon_step bc x) as [[o bc1]|]; simpl; auto.
    rewrite IH. destruct (canonicalize_chunk bc1 a) as [[o1 bc2]|]; simpl; auto.
    destruct (canonicalize_chunk bc2 b) as [[o2 bc3]|]; simpl; auto.
    rewrite app_assoc. reflexivity.
Qed.

Lemma canonicalize_chunks_concat : forall chunks bc,
  canonicalize_chunks bc chunks = canonicalize_chunk bc (concat chunks).
Proof.
  induction chunks as [|c chunks IH]; intros bc; simpl; auto.
  rewrite canonicalize_chunk_app.
  destruct (canonicalize_chunk bc c) as [[o bc1]|]; simpl; auto.
  rewrite IH. reflexivity.
Qed.

Theorem chunking_irrelevant : forall alg chunks,
  canonicalize_body alg chunks = canonicalize_body alg [concat chunks].
Proof.
  intros. unfold canonicalize_body. rewrite !canonicalize_chunks_concat. simpl.
  rewrite app_nil_r. reflexivity.
Qed.

(** ** Lines *)

Fixpoint nc (l : list byte) : bool :=
  match l with
  | a :: t => match t with
              | b :: _ => negb ((a =? 13) && (b =? 10)) && nc t
              | [] => true
              end
  | [] => true
  end.

Lemma nc_app_l : forall a b, nc (a ++ b) = true -> nc a = true.
Proof.
  induction a as [|x a IH]; intros b H; simpl in *; auto.
  destruct a as [|y a]; auto. simpl in *.
  apply andb_true_iff in H. destruct H as [H1 H2]. rewrite H1. simpl. eapply IH. eauto.
Qed.

Lemma nc_snoc : forall l b,
  nc l = true -> (forall l', l = l' ++ [13] -> b <> 10) -> nc (l ++ [b]) = true.
Proof.
  induction l as [|x l IH]; intros b H1 H2; auto.
  destruct l as [|y l].
  - simpl. destruct (x =? 13) eqn:E1; auto. simpl.
    destruct (b =? 10) eqn:E2; auto. apply N.eqb_eq in E1, E2. subst.
    exfalso. eapply (H2 []); eauto.
  - change (nc (x :: (y :: l) ++ [b]) = true). simpl in H1 |- *.
    apply andb_true_iff in H1. destruct H1 as [H1 H3]. rewrite H1. simpl.
    apply (IH b); auto. intros l' E. apply (H2 (x :: l')). rewrite E. reflexivity.
Qed.

Lemma lines_nonempty : forall s, lines s <> [].
Proof.
  intros [|c s]; simpl; [easy|]. destruct (lines s); [easy|].
  destruct s as [|b s]; [easy|]. destruct ((c =? 13) && (b =? 10)); easy.
Qed.

Lemma lines_crlf : forall s, lines (13 :: 10 :: s) = [] :: lines s.
Proof.
  intros. change (lines (13 :: 10 :: s)) with
    (match lines (10 :: s) with
     | [] => [[13]]
     | l :: ls => if (13 =? 13) && (10 =? 10) then [] :: lines s else (13 :: l) :: ls
     end).
  pose proof (lines_nonempty (10 :: s)). destruct (lines (10 :: s)); [congruence|reflexivity].
Qed.

Lemma lines_cons : forall c s, nc (c :: firstn 1 s) = true ->
  lines (c :: s) = match lines s with l :: ls => (c :: l) :: ls | [] => [] end.
Proof.
  intros c s H. simpl. pose proof (lines_nonempty s). destruct (lines s) eqn:E; [congruence|].
  destruct s as [|d s]; auto. simpl in H.
  destruct ((c =? 13) && (d =? 10)); [discriminate|auto].
Qed.

Lemma lines_app_crlf : forall l s, nc l = true -> lines (l ++ 13 :: 10 :: s) = l :: lines s.
Proof.
  induction l as [|c l IH]; intros s H.
  - apply lines_crlf.
  - simpl app. rewrite lines_cons.
    + rewrite IH; auto. destruct l; auto. simpl in H. apply andb_true_iff in H. apply H.
    + destruct l as [|d l]; simpl.
      * replace (13 =? 10) with false by reflexivity. rewrite andb_false_r. reflexivity.
      * simpl in H. apply andb_true_iff in H. destruct H as [H _]. rewrite H. reflexivity.
Qed.

Lemma lines_nc : forall l, nc l = true -> lines l = [l].
Proof.
  induction l as [|c l IH]; intros H; auto.
  rewrite lines_cons.
  - rewrite IH; auto. destruct l; auto. simpl in H. apply andb_true_iff in H. apply H.
  - destruct l as [|d l]; auto. simpl in *. apply andb_true_iff in H. destruct H as [H _].
    rewrite H. reflexivity.
Qed.

Lemma lines_terminate : forall ls l,
  Forall (fun l => nc l = true) ls -> nc l = true -> lines (terminate ls ++ l) = ls ++ [l].
Proof.
  induction ls as [|x ls IH]; intros l H1 H2.
  - simpl. apply lines_nc. auto.
  - inv H1. change (terminate (x :: ls)) with ((x ++ [13; 10]) ++ terminate ls).
    rewrite <- !app_assoc. simpl. rewrite lines_app_crlf by auto. rewrite IH; auto.
Qed.

Lemma terminate_app : forall a b, terminate (a ++ b) = terminate a ++ terminate b.
Proof. intros. unfold terminate. rewrite map_app, concat_app. reflexivity. Qed.

Lemma terminate_one : forall l, terminate [l] = l ++ [13; 10].
Proof. intros. unfold terminate. simpl. apply app_nil_r. Qed.

(** every body is its lines *)
Lemma body_lines : forall s, exists ls l,
  s = terminate ls ++ l /\ Forall (fun l => nc l = true) ls /\ nc l = true.
Proof.
  intros s. induction s as [|b s IH] using rev_ind.
  - exists [], []. auto.
  - destruct IH as (ls & l & H1 & H2 & H3). subst.
    destruct (snoc_cases _ l) as [E|(l' & x & E)].
    + subst. exists ls, [b]. rewrite app_nil_r. auto.
    + destruct ((x =? 13) && (b =? 10)) eqn:E2.
      * apply andb_true_iff in E2. destruct E2 as [E2 E3]. apply N.eqb_eq in E2, E3. subst.
        exists (ls ++ [l']), []. rewrite terminate_app, terminate_one. rewrite app_nil_r.
        rewrite <- !app_assoc. simpl. split; auto. split; auto.
        apply Forall_app. split; auto. constructor; auto. eapply nc_app_l. eauto.
      * exists ls, (l ++ [b]). rewrite app_assoc. split; auto. split; auto.
        apply nc_snoc; auto. intros l'' E3 E4. subst. apply app_inj_tail in E3.
        destruct E3. subst. simpl in E2. discriminate.
Qed.

(** ** Trailing empty lines *)

Lemma dte_snoc : forall ls l,
  drop_trailing_empty (ls ++ [l]) =
  match l with [] => drop_trailing_empty ls | _ => ls ++ [l] end.
Proof.
  induction ls as [|x ls IH]; intros l; simpl.
  - destruct l; reflexivity.
  - rewrite IH. destruct l; auto. destruct ls; reflexivity.
Qed.

(** number of trailing empty lines *)
Definition te (ls : list (list byte)) : nat := (length ls - length (drop_trailing_empty ls))%nat.

Lemma dte_length : forall ls, (length (drop_trailing_empty ls) <= length ls)%nat.
Proof.
  induction ls as [|l ls IH]; simpl; auto.
  destruct (drop_trailing_empty ls); [destruct l; simpl; lia|]. simpl in *. lia.
Qed.

Lemma te_snoc_nil : forall ls, te (ls ++ [[]]) = S (te ls).
Proof.
  intros. unfold te. rewrite dte_snoc. rewrite app_length. simpl.
  pose proof (dte_length ls). lia.
Qed.

Lemma te_snoc : forall ls l, l <> [] -> te (ls ++ [l]) = O.
Proof. intros. unfold te. rewrite dte_snoc. destruct l; [congruence|]. lia. Qed.

Lemma crlfs_snoc : forall n, crlfs (S n) = crlfs n ++ [13; 10].
Proof.
  induction n as [|n IH]; auto.
  change (crlfs (S (S n))) with ([13; 10] ++ crlfs (S n)). rewrite IH at 1.
  change (crlfs (S n)) with ([13; 10] ++ crlfs n). rewrite <- app_assoc. auto.
Qed.

Lemma terminate_dte : forall ls, terminate ls = terminate (drop_trailing_empty ls) ++ crlfs (te ls).
Proof.
  induction ls as [|l ls IH] using rev_ind; auto.
  rewrite dte_snoc. destruct l as [|c l].
  - rewrite te_snoc_nil. rewrite crlfs_snoc. rewrite terminate_app, terminate_one. rewrite IH at 1.
    rewrite <- app_assoc. auto.
  - rewrite te_snoc by easy. simpl crlfs. rewrite app_nil_r. auto.
Qed.

(** ** Relaxed lines *)

Lemma forallb_wsp_snoc : forall l c, forallb wsp (l ++ [c]) = forallb wsp l && wsp c.
Proof. intros. rewrite forallb_app. simpl. rewrite andb_true_r. auto. Qed.

Lemma relaxed_line_snoc_wsp : forall l c, wsp c = true -> relaxed_line (l ++ [c]) = relaxed_line l.
Proof.
  induction l as [|x l IH]; intros c H; simpl.
  - rewrite H. auto.
  - rewrite IH by auto. rewrite forallb_wsp_snoc, H, andb_true_r.
    destruct (wsp x); auto. destruct (forallb wsp l) eqn:E; auto.
    destruct l as [|d l]; [discriminate|]. reflexivity.
Qed.

Definition ends_wsp (l : list byte) : bool := match rev l with c :: _ => wsp c | [] => false end.

Lemma ends_wsp_cons : forall x l, l <> [] -> ends_wsp (x :: l) = ends_wsp l.
Proof.
  intros. unfold ends_wsp. simpl. destruct (rev l) eqn:E; auto.
  exfalso. apply H. rewrite <- (rev_involutive l). rewrite E. auto.
Qed.

Lemma ends_wsp_snoc : forall l c, ends_wsp (l ++ [c]) = wsp c.
Proof. intros. unfold ends_wsp. rewrite rev_app_distr. auto. Qed.

Lemma ends_wsp_all : forall l, l <> [] -> forallb wsp l = true -> ends_wsp l = true.
Proof.
  intros. destruct (snoc_cases _ l) as [E|(l' & x & E)]; [congruence|]. subst.
  rewrite ends_wsp_snoc. rewrite forallb_wsp_snoc in H0. apply andb_true_iff in H0. apply H0.
Qed.

Lemma relaxed_line_blank : forall l, relaxed_line l = [] <-> forallb wsp l = true.
Proof.
  induction l as [|x l IH]; simpl; [easy|].
  destruct (wsp x); simpl; [|split; discriminate].
  destruct (forallb wsp l) eqn:E; [easy|].
  destruct l as [|d l]; [discriminate|].
  destruct (wsp d) eqn:E2; [|split; discriminate].
  rewrite IH. simpl. split; auto.
Qed.

Lemma relaxed_line_cons2 : forall x d l,
  relaxed_line (x :: d :: l) =
  if wsp x then
    if forallb wsp (d :: l) then []
    else if wsp d then relaxed_line (d :: l) else 32 :: relaxed_line (d :: l)
  else x :: relaxed_line (d :: l).
Proof. reflexivity. Qed.

Lemma relaxed_line_snoc : forall l c, wsp c = false ->
  relaxed_line (l ++ [c]) = relaxed_line l ++ (if ends_wsp l then [32; c] else [c]).
Proof.
  induction l as [|x l IH]; intros c H.
  - simpl. rewrite H. auto.
  - destruct l as [|d l].
    + simpl. rewrite H. unfold ends_wsp. simpl. destruct (wsp x); auto.
    + rewrite ends_wsp_cons by easy. specialize (IH c H).
      change ((x :: d :: l) ++ [c]) with (x :: d :: (l ++ [c])).
      change ((d :: l) ++ [c]) with (d :: (l ++ [c])) in IH.
      rewrite !relaxed_line_cons2. rewrite IH.
      change (d :: (l ++ [c])) with ((d :: l) ++ [c]).
      rewrite forallb_wsp_snoc, H, andb_false_r.
      destruct (wsp x) eqn:Ex; [|reflexivity].
      destruct (forallb wsp (d :: l)) eqn:E.
      * assert (relaxed_line (d :: l) = []) as E2 by (apply relaxed_line_blank; auto).
        rewrite E2. rewrite ends_wsp_all by easy.
        cbn [forallb] in E. apply andb_true_iff in E. destruct E as [E _].
        rewrite E. auto.
      * destruct (wsp d); auto.
Qed.

(** ** The simple automaton *)

Definition pending (st : CanonState) : list byte :=
  match st with SCr | SWspCr => [13] | _ => [] end.

Definition simple_state_ok (st : CanonState) (ls : list (list byte)) (l : list byte) : Prop :=
  match st with
  | SInit => ls = [] /\ l = []
  | SCrLf => ls <> [] /\ l = []
  | SCr => True
  | SByte => exists l' c, l = l' ++ [c] /\ c <> 13
  | SWsp | SWspCr => False
  end.

Definition canon_inv (f : list byte -> list byte)
    (state_ok : CanonState -> list (list byte) -> list byte -> Prop)
    (p out : list byte) (bc : BodyCanon) : Prop :=
  exists ls l,
    p = terminate ls ++ l ++ pending (bc_state bc)
    /\ Forall (fun l => nc l = true) ls /\ nc (l ++ pending (bc_state bc)) = true
    /\ state_ok (bc_state bc) ls l
    /\ (if bc_blank_line bc
        then f l = [] /\ out = terminate (drop_trailing_empty (map f ls))
             /\ bc_empty_lines bc = te (map f ls)
        else f l <> [] /\ out = terminate (map f ls) ++ f l /\ bc_empty_lines bc = O).

Definition id_line (l : list byte) : list byte := l.

Lemma flush_inv : forall (f : list byte -> list byte) bc (ls : list (list byte)) l out,
  (if bc_blank_line bc
   then f l = [] /\ out = terminate (drop_trailing_empty (map f ls))
        /\ bc_empty_lines bc = te (map f ls)
   else f l <> [] /\ out = terminate (map f ls) ++ f l /\ bc_empty_lines bc = O) ->
  out ++ fst (flush_empty_lines bc) = terminate (map f ls) ++ f l.
Proof.
  intros f bc ls l out H. unfold flush_empty_lines. cbn [fst].
  destruct (bc_blank_line bc); destruct H as (H1 & H2 & H3); rewrite H3; subst.
  - rewrite H1, app_nil_r. symmetry. apply terminate_dte.
  - simpl crlfs. rewrite app_nil_r. auto.
Qed.

(** a complete line *)
Lemma line_end_inv : forall (f : list byte -> list byte) (ok : CanonState -> list (list byte) -> list byte -> Prop) bc p out (ls : list (list byte)) l,
  f [] = [] ->
  (forall ls, ls <> [] -> ok SCrLf ls []) ->
  p = terminate ls ++ l ++ [13] ->
  Forall (fun l => nc l = true) ls -> nc (l ++ [13]) = true ->
  (if bc_blank_line bc
   then f l = [] /\ out = terminate (drop_trailing_empty (map f ls))
        /\ bc_empty_lines bc = te (map f ls)
   else f l <> [] /\ out = terminate (map f ls) ++ f l /\ bc_empty_lines bc = O) ->
  canon_inv f ok (p ++ [10]) (out ++ fst (line_end bc)) (snd (line_end bc)).
Proof.
  intros f ok bc p out ls l Hf Hok Hp H1 H2 H3. exists (ls ++ [l]), [].
  unfold line_end. destruct (bc_blank_line bc); simpl.
  - destruct H3 as (H3 & H4 & H5). split; [|split; [|split; [|split]]]; auto.
    + rewrite terminate_app, terminate_one, app_nil_r. subst. rewrite <- !app_assoc. auto.
    + apply Forall_app. split; auto. constructor; auto. eapply nc_app_l. eauto.
    + apply Hok. destruct ls; easy.
    + split; auto. rewrite map_app. simpl. rewrite H3. rewrite dte_snoc, te_snoc_nil, app_nil_r.
      split; auto.
  - destruct H3 as (H3 & H4 & H5). split; [|split; [|split; [|split]]]; auto.
    + rewrite terminate_app, terminate_one, app_nil_r. subst. rewrite <- !app_assoc. auto.
    + apply Forall_app. split; auto. constructor; auto. eapply nc_app_l. eauto.
    + apply Hok. destruct ls; easy.
    + split; auto. rewrite map_app. simpl. rewrite dte_snoc, te_snoc by auto.
      destruct (f l) eqn:E; [congruence|]. rewrite <- E in *.
      rewrite terminate_app, terminate_one. subst. rewrite <- app_assoc. auto.
Qed.

(** a byte added to the line after flushing *)
Lemma byte_inv : forall (f : list byte -> list byte) (ok : CanonState -> list (list byte) -> list byte -> Prop) bc1 st p q out o (ls : list (list byte)) l,
  p = terminate ls ++ (l ++ q) ++ pending st ->
  Forall (fun l => nc l = true) ls -> nc ((l ++ q) ++ pending st) = true ->
  ok st ls (l ++ q) ->
  f (l ++ q) <> [] ->
  out ++ o = terminate (map f ls) ++ f (l ++ q) ->
  bc_blank_line bc1 = false -> bc_empty_lines bc1 = O -> bc_state bc1 = st ->
  canon_inv f ok p (out ++ o) bc1.
Proof.
  intros. exists ls, (l ++ q). subst. rewrite H5.
  auto 10.
Qed.

Lemma nc_after_cr : forall l b, b <> 10 -> nc (l ++ [13]) = true -> nc ((l ++ [13]) ++ [b]) = true.
Proof. intros. apply nc_snoc; auto. Qed.

Lemma simple_step : forall bc p out b,
  bc_kind bc = Simple ->
  canon_inv id_line simple_state_ok p out bc ->
  exists o bc', step_simple bc b = Val (o, bc') /\ bc_kind bc' = Simple
    /\ canon_inv id_line simple_state_ok (p ++ [b]) (out ++ o) bc'.
Proof.
  intros [k st bl el] p out b Hk (ls & l & Hp & H1 & H2 & H3 & H4). simpl in Hk. subst k.
  simpl in Hp, H2, H3.
  assert (forall ls, ls <> [] -> simple_state_ok SCrLf ls []) as Hcrlf by (simpl; auto).
  pose proof (flush_inv _ _ _ _ _ H4) as F. simpl in F.
  unfold step_simple. cbn [bc_state].
  destruct st; simpl in H3; try contradiction; cbn [pending] in *.
  (* Init *)
  - destruct H3; subst. destruct (b =? CR) eqn:E.
    + apply N.eqb_eq in E. subst. eexists _, _. split; eauto. split; auto.
      exists [], []. simpl. rewrite app_nil_r. split; auto.
    + eexists _, _. split; [reflexivity|]. split; auto.
      rewrite app_nil_r in *. simpl app at 1.
      apply (byte_inv id_line _ _ SByte _ [b] _ _ [] []); try (subst p; rewrite <- ?app_assoc, ?app_nil_r; reflexivity); auto; simpl; try easy.
      * exists [], b. split; auto. apply N.eqb_neq in E. auto.
      * rewrite app_assoc. rewrite F. auto.
  (* CrLf *)
  - destruct H3; subst. destruct (b =? CR) eqn:E.
    + apply N.eqb_eq in E. subst. eexists _, _. split; eauto. split; auto.
      exists ls, []. simpl. rewrite !app_nil_r in *. split; auto.
    + eexists _, _. split; [reflexivity|]. split; auto.
      rewrite !app_nil_r in *.
      apply (byte_inv id_line _ _ SByte _ [b] _ _ ls []); try (subst p; rewrite <- ?app_assoc, ?app_nil_r; reflexivity); auto; simpl; try easy.
      * exists [], b. split; auto. apply N.eqb_neq in E. auto.
      * rewrite app_assoc. rewrite F.
        auto.
  (* Cr *)
  - destruct (b =? LF) eqn:E.
    + apply N.eqb_eq in E. subst b. destruct (line_end _) as [o bc'] eqn:El.
      eexists _, _. split; [reflexivity|]. split.
      { unfold line_end in El. simpl in El. destruct bl; inv El; auto. }
      pose proof (line_end_inv id_line simple_state_ok _ p out ls l eq_refl Hcrlf Hp H1 H2 H4) as L.
      rewrite El in L. apply L.
    + apply N.eqb_neq in E.
      destruct (flush_empty_lines _) as [o bc1] eqn:Ef.
      assert (o = crlfs el) as -> by (unfold flush_empty_lines in Ef; inv Ef; auto).
      assert (bc_kind bc1 = Simple /\ bc_state bc1 = SCr /\ bc_blank_line bc1 = false
              /\ bc_empty_lines bc1 = O) as (B1 & B2 & B3 & B4)
        by (unfold flush_empty_lines in Ef; inv Ef; auto).
      assert (nc ((l ++ [13]) ++ [b]) = true) as N1 by (apply nc_after_cr; auto).
      destruct (b =? CR) eqn:E2; simpl.
      * apply N.eqb_eq in E2. subst b. eexists _, _. split; [reflexivity|]. split; auto.
        apply (byte_inv id_line _ _ SCr _ [CR] _ _ ls l); try (subst p; rewrite <- !app_assoc; simpl; rewrite ?app_nil_r; reflexivity); auto; simpl; auto.
        -- unfold id_line. destruct l; easy.
        -- rewrite app_assoc, F. unfold id_line. rewrite <- app_assoc. auto.
      * eexists _, _. split; [reflexivity|]. split; auto.
        apply (byte_inv id_line _ _ SByte _ [CR; b] _ _ ls l); try (subst p; rewrite <- !app_assoc; simpl; rewrite ?app_nil_r; reflexivity); auto; simpl; auto.
        -- rewrite app_nil_r. rewrite <- app_assoc in N1. apply N1.
        -- exists (l ++ [CR]), b. rewrite <- app_assoc. split; auto. apply N.eqb_neq in E2. auto.
        -- unfold id_line. destruct l; easy.
        -- rewrite app_assoc, F. unfold id_line. rewrite <- app_assoc. auto.
  (* Byte *)
  - destruct H3 as (l' & c & E1 & E2).
    rewrite app_nil_r in *.
    assert (bl = false) as Ebl.
    { destruct bl; auto. simpl in H4. destruct H4 as [H4 _]. subst. unfold id_line in H4.
      destruct l'; discriminate. }
    subst bl. destruct H4 as (H4 & H5 & H6). simpl in H6. subst el.
    destruct (b =? CR) eqn:E.
    + apply N.eqb_eq in E. subst b. eexists _, _. split; [reflexivity|]. split; auto.
      exists ls, l. simpl. split; [subst; rewrite <- !app_assoc; auto|].
      split; auto. split; [apply nc_snoc; auto; easy|]. split; auto.
    + eexists _, _. split; [reflexivity|]. split; auto.
      apply (byte_inv id_line _ _ SByte _ [b] _ _ ls l); try (subst p; rewrite <- !app_assoc; simpl; rewrite ?app_nil_r; reflexivity); auto; simpl; auto.
      * rewrite app_nil_r. apply nc_snoc; auto. intros l'' E3. subst l.
        apply app_inj_tail in E3. destruct E3. congruence.
      * exists l, b. split; auto. apply N.eqb_neq in E. auto.
      * unfold id_line. destruct l; easy.
      * rewrite H5. unfold id_line. rewrite <- app_assoc. auto.
Qed.

Lemma canon_run : forall alg f ok body,
  canon_inv f ok [] [] (bc_new alg) ->
  (forall bc p out b, bc_kind bc = alg -> canon_inv f ok p out bc ->
     exists o bc', canon_step bc b = Val (o, bc') /\ bc_kind bc' = alg
       /\ canon_inv f ok (p ++ [b]) (out ++ o) bc') ->
  exists o bc', canonicalize_chunk (bc_new alg) body = Val (o, bc') /\ bc_kind bc' = alg
    /\ canon_inv f ok body o bc'.
Proof.
  intros alg f ok body H0 Hs. induction body as [|b body IH] using rev_ind.
  - exists [], (bc_new alg). simpl. auto.
  - destruct IH as (o & bc & H1 & H2 & H3).
    destruct (Hs bc body o b H2 H3) as (o' & bc' & H4 & H5 & H6).
    exists (o ++ o'), bc'. rewrite canonicalize_chunk_app, H1. simpl. rewrite H4. simpl.
    rewrite app_nil_r. auto.
Qed.

Lemma simple_run : forall body,
  exists o bc', canonicalize_chunk (bc_new Simple) body = Val (o, bc') /\ bc_kind bc' = Simple
    /\ canon_inv id_line simple_state_ok body o bc'.
Proof.
  intros. apply canon_run.
  - exists [], []. simpl. auto 10.
  - intros bc p out b Hk H. unfold canon_step. rewrite Hk. apply simple_step; auto.
Qed.

Lemma strip_crlf_snoc : forall s, strip_trailing_crlfs (s ++ [13; 10]) = strip_trailing_crlfs s.
Proof. intros. unfold strip_trailing_crlfs. rewrite rev_app_distr. reflexivity. Qed.

Lemma strip_crlf_nop : forall s c, c <> 10 -> strip_trailing_crlfs (s ++ [c]) = s ++ [c].
Proof.
  intros. unfold strip_trailing_crlfs. rewrite rev_app_distr. simpl.
  apply N.eqb_neq in H. rewrite H. simpl. destruct (rev s) eqn:E; simpl.
  - destruct s; auto. apply (f_equal (@rev _)) in E. rewrite rev_involutive in E. discriminate.
  - rewrite <- (rev_involutive s), E. reflexivity.
Qed.

Lemma strip_crlf_nop2 : forall s d c, ~ (d = 13 /\ c = 10) ->
  strip_trailing_crlfs (s ++ [d; c]) = s ++ [d; c].
Proof.
  intros. unfold strip_trailing_crlfs. rewrite rev_app_distr. simpl.
  destruct ((c =? 10) && (d =? 13)) eqn:E.
  - apply andb_true_iff in E. destruct E as [E1 E2]. apply N.eqb_eq in E1, E2. subst. tauto.
  - simpl. rewrite rev_involutive. rewrite <- app_assoc. auto.
Qed.

Lemma strip_crlf_one : forall c, strip_trailing_crlfs [c] = [c].
Proof. reflexivity. Qed.

(** a body whose last line is not empty has no trailing CRLF *)
Lemma strip_nonempty_line : forall ls l, nc l = true -> l <> [] ->
  Forall (fun l => nc l = true) ls ->
  strip_trailing_crlfs (terminate ls ++ l) = terminate ls ++ l.
Proof.
  intros ls l H1 H2 H3. destruct (snoc_cases _ l) as [E|(l1 & c & E)]; [congruence|]. subst.
  destruct (N.eq_dec c 10) as [->|Hc].
  2:{ rewrite app_assoc. apply strip_crlf_nop. auto. }
  destruct (snoc_cases _ l1) as [E|(l2 & d & E)]; subst.
  - destruct (snoc_cases _ ls) as [E|(ls' & x & E)]; subst.
    + reflexivity.
    + rewrite terminate_app, terminate_one. rewrite <- !app_assoc. simpl.
      change [13; 10; 10] with ([13] ++ [10; 10]). rewrite !app_assoc.
      apply strip_crlf_nop2. intros [H _]. discriminate.
  - rewrite <- app_assoc in *. simpl in *. rewrite app_assoc. apply strip_crlf_nop2.
    intros [E _]. subst d. clear -H1. induction l2 as [|x l2 IH].
    + discriminate.
    + simpl app in H1. apply IH. destruct l2; simpl in H1; apply andb_true_iff in H1; apply H1.
Qed.

Lemma strip_terminate : forall ls, Forall (fun l => nc l = true) ls ->
  match drop_trailing_empty ls with
  | [] => strip_trailing_crlfs (terminate ls) = []
  | _ => strip_trailing_crlfs (terminate ls) ++ [13; 10] = terminate (drop_trailing_empty ls)
  end.
Proof.
  induction ls as [|l ls IH] using rev_ind; intros H.
  - reflexivity.
  - apply Forall_app in H. destruct H as [H1 H2]. inv H2. rewrite dte_snoc.
    rewrite terminate_app, terminate_one. rewrite app_assoc. rewrite strip_crlf_snoc.
    destruct l as [|c l].
    + rewrite app_nil_r. apply IH. auto.
    + destruct (ls ++ [c :: l]) eqn:E; [destruct ls; discriminate|]. rewrite <- E.
      rewrite strip_nonempty_line by (auto; easy).
      rewrite <- app_assoc, terminate_app, terminate_one. auto.
Qed.

Lemma terminate_nil : forall ls, terminate ls = [] -> ls = [].
Proof. intros [|l ls]; auto. unfold terminate. simpl. destruct l; discriminate. Qed.

Theorem simple_body_spec : forall chunks,
  canonicalize_body Simple chunks = Val (impl_simple_body (concat chunks)).
Proof.
  intros. unfold canonicalize_body. rewrite canonicalize_chunks_concat.
  set (body := concat chunks). destruct (simple_run body) as (o & bc & H1 & H2 & H3).
  rewrite H1. simpl. destruct H3 as (ls & l & Hp & L1 & L2 & L3 & L4).
  unfold bc_finish. rewrite H2.
  destruct bc as [k st bl el]. simpl in *. subst k.
  assert (forall l', l' <> [] -> nc l' = true -> body = terminate ls ++ l' ->
            impl_simple_body body = (terminate ls ++ l') ++ [13; 10]) as Himpl.
  { intros l' N1 N2 N3. unfold impl_simple_body, rfc_simple_body, only_crlfs. rewrite N3.
    rewrite strip_nonempty_line by auto.
    replace (is_nil (terminate ls ++ l')) with false.
    2:{ symmetry. apply is_nil_false. destruct (terminate ls); destruct l'; easy. }
    simpl. auto. }
  destruct st; simpl in L3; try contradiction; cbn [pending] in *.
  - destruct L3. subst. simpl in Hp. rewrite Hp. destruct bl; [|destruct L4; easy].
    destruct L4 as (_ & L4 & _). rewrite L4. reflexivity.
  - destruct L3. subst l. simpl in L4. destruct bl; [|destruct L4; easy].
    destruct L4 as (_ & L4 & _). rewrite L4. simpl. rewrite app_nil_r in *.
    unfold impl_simple_body, rfc_simple_body, only_crlfs. f_equal.
    unfold id_line. rewrite map_id. rewrite Hp.
    pose proof (strip_terminate ls L1) as S.
    destruct (drop_trailing_empty ls) eqn:E.
    + rewrite S. simpl. destruct (is_nil (terminate ls)) eqn:E2; auto.
      apply is_nil_true in E2. apply terminate_nil in E2. contradiction.
    + rewrite <- S. replace (is_nil (strip_trailing_crlfs (terminate ls))) with false.
      2:{ symmetry. apply is_nil_false. intros S2. rewrite S2 in S. rewrite <- E in S.
          (* the remaining lines would be a single CRLF, so not stripped *)
          clear -S E. assert (forall ls, terminate (drop_trailing_empty ls) <> [13; 10]) as X.
          { clear. intros ls H. destruct (snoc_cases _ (drop_trailing_empty ls)) as [E|(a & x & E)].
            - rewrite E in H. discriminate.
            - assert (x = []).
              { rewrite E in H. rewrite terminate_app, terminate_one in H.
                apply (f_equal (@length _)) in H. rewrite !app_length in H. simpl in H.
                destruct x; auto. simpl in H. lia. }
              subst. clear H. revert a E. induction ls as [|y ls IH] using rev_ind; intros a E.
              + destruct a; discriminate.
              + rewrite dte_snoc in E. destruct y.
                * apply (IH a). auto.
                * apply app_inj_tail in E. destruct E. discriminate. }
          apply (X ls). auto. }
      rewrite andb_false_r. auto.
  - rewrite (Himpl (l ++ [13])); auto.
    2:{ destruct l; easy. }
    pose proof (flush_inv id_line (mkBodyCanon Simple SCr bl el) _ _ _ L4) as F. cbn [fst flush_empty_lines] in F.
    unfold flush_empty_lines. simpl. f_equal. unfold id_line in *. rewrite map_id in F.
    rewrite app_assoc. simpl in F. rewrite F. rewrite <- !app_assoc. auto.
  - destruct L3 as (l' & c & E & E2). rewrite app_nil_r in *.
    destruct bl.
    { destruct L4 as [L4 _]. subst. unfold id_line in L4. destruct l'; discriminate. }
    destruct L4 as (L4 & L5 & _). rewrite (Himpl l); auto. f_equal. rewrite L5.
    unfold id_line. rewrite map_id. auto.
Qed.

(** ** The relaxed automaton *)

Definition relaxed_state_ok (st : CanonState) (ls : list (list byte)) (l : list byte) : Prop :=
  match st with
  | SInit => ls = [] /\ l = []
  | SCrLf => ls <> [] /\ l = []
  | SCr => ends_wsp l = false
  | SByte => exists l' c, l = l' ++ [c] /\ c <> 13 /\ wsp c = false
  | SWsp => ends_wsp l = true
  | SWspCr => ends_wsp l = true
  end.

Lemma wsp_eq : forall b, is_wsp_byte b = wsp b.
Proof. intros. unfold is_wsp_byte, wsp, TAB, SP. apply orb_comm. Qed.

Lemma wsp_neq : forall b, wsp b = true -> b <> 13 /\ b <> 10.
Proof. intros. unfold wsp in H. lia. Qed.

Lemma relaxed_app_cr : forall l, relaxed_line (l ++ [13]) = relaxed_line l ++ if ends_wsp l then [32; 13] else [13].
Proof. intros. apply relaxed_line_snoc. reflexivity. Qed.

Lemma snoc_neq_nil : forall A (l : list A) x, l ++ [x] <> [].
Proof. destruct l; easy. Qed.

Lemma relaxed_snoc_neq : forall l c, wsp c = false -> relaxed_line (l ++ [c]) <> [].
Proof.
  intros. rewrite relaxed_line_snoc by auto. destruct (ends_wsp l); destruct (relaxed_line l); easy.
Qed.

(** Adding WSP to a line without flushing. *)
Lemma wsp_inv : forall ls l b st1 out (bl : bool) el p,
  p = terminate ls ++ l ->
  Forall (fun l => nc l = true) ls -> nc l = true -> wsp b = true -> st1 = SWsp ->
  (if bl
   then relaxed_line l = [] /\ out = terminate (drop_trailing_empty (map relaxed_line ls))
        /\ el = te (map relaxed_line ls)
   else relaxed_line l <> [] /\ out = terminate (map relaxed_line ls) ++ relaxed_line l /\ el = O) ->
  canon_inv relaxed_line relaxed_state_ok (p ++ [b]) out (mkBodyCanon Relaxed st1 bl el).
Proof.
  intros. subst. exists ls, (l ++ [b]). simpl. rewrite app_nil_r. rewrite relaxed_line_snoc_wsp by auto.
  rewrite app_assoc. split; auto. split; auto. split.
  - apply nc_snoc; auto. intros. apply wsp_neq in H2. tauto.
  - split; auto. rewrite ends_wsp_snoc. auto.
Qed.

Lemma relaxed_step : forall bc p out b,
  bc_kind bc = Relaxed ->
  canon_inv relaxed_line relaxed_state_ok p out bc ->
  exists o bc', step_relaxed bc b = Val (o, bc') /\ bc_kind bc' = Relaxed
    /\ canon_inv relaxed_line relaxed_state_ok (p ++ [b]) (out ++ o) bc'.
Proof.
  intros [k st bl el] p out b Hk (ls & l & Hp & H1 & H2 & H3 & H4). simpl in Hk. subst k.
  simpl in Hp, H2, H3.
  assert (forall ls, ls <> [] -> relaxed_state_ok SCrLf ls []) as Hcrlf by (simpl; auto).
  unfold step_relaxed. cbn [bc_state]. rewrite wsp_eq.
  pose proof (flush_inv _ _ _ _ _ H4) as F.
  destruct (flush_empty_lines _) as [of bc1] eqn:Ef. simpl in F.
  assert (bc_kind bc1 = Relaxed /\ bc_blank_line bc1 = false
          /\ bc_empty_lines bc1 = O) as (B1 & B3 & B4)
    by (unfold flush_empty_lines in Ef; inv Ef; auto).
  assert (forall b, b <> 13 -> b <> 10 \/ True) as _ by auto.
  (* starting a line *)
  assert (forall q, l = [] -> p = terminate ls -> wsp b = false -> b <> 13 -> q = of ++ [b] ->
    canon_inv relaxed_line relaxed_state_ok (p ++ [b]) (out ++ q) (set_state SByte bc1)) as Hstart.
  { intros q E1 E2 E3 E4 E5. subst l q. rewrite E2.
    apply (byte_inv relaxed_line _ _ SByte _ [b] _ _ ls []); try (subst p; rewrite <- !app_assoc; simpl; rewrite ?app_nil_r; reflexivity); auto.
    - exists [], b. auto.
    - apply relaxed_snoc_neq. auto.
    - rewrite app_assoc, F. simpl. rewrite E3. rewrite app_nil_r. auto. }
  destruct st; cbn [pending] in *.
  - (* Init *)
    destruct H3; subst. rewrite !app_nil_r in *.
    destruct (wsp b) eqn:Ew.
    { eexists _, _. split; [reflexivity|]. split; auto. rewrite app_nil_r.
      apply (wsp_inv [] []); auto. }
    destruct (b =? CR) eqn:E.
    + apply N.eqb_eq in E. subst b. eexists _, _. split; [reflexivity|]. split; auto.
      exists [], []. simpl. rewrite app_nil_r. auto.
    + apply N.eqb_neq in E. eexists _, _. split; [reflexivity|]. split; [exact B1|].
      apply Hstart; auto.
  - (* CrLf *)
    destruct H3; subst. rewrite !app_nil_r in *.
    destruct (wsp b) eqn:Ew.
    { eexists _, _. split; [reflexivity|]. split; auto. rewrite app_nil_r.
      apply (wsp_inv ls []); auto. all: simpl; rewrite ?app_nil_r; auto. }
    destruct (b =? CR) eqn:E.
    + apply N.eqb_eq in E. subst b. eexists _, _. split; [reflexivity|]. split; auto.
      exists ls, []. simpl. rewrite !app_nil_r. auto 10.
    + apply N.eqb_neq in E. eexists _, _. split; [reflexivity|]. split; [exact B1|].
      apply Hstart; auto.
  - (* Cr *)
    simpl in H3. destruct (b =? LF) eqn:E.
    { apply N.eqb_eq in E. subst b. destruct (line_end _) as [o bc'] eqn:El.
      eexists _, _. split; [reflexivity|]. split.
      { unfold line_end in El. simpl in El. destruct bl; inv El; auto. }
      pose proof (line_end_inv relaxed_line relaxed_state_ok _ p out ls l eq_refl Hcrlf Hp H1 H2 H4) as L.
      rewrite El in L. apply L. }
    apply N.eqb_neq in E.
    assert (relaxed_line (l ++ [13]) = relaxed_line l ++ [13]) as R1
      by (rewrite relaxed_app_cr, H3; auto).
    assert (nc ((l ++ [13]) ++ [b]) = true) as N1 by (apply nc_after_cr; auto).
    destruct (wsp b) eqn:Ew.
    { eexists _, _. split; [reflexivity|]. split; [exact B1|].
      exists ls, (l ++ [13] ++ [b]). cbn [set_state bc_state pending bc_blank_line bc_empty_lines].
      rewrite B3, B4, app_nil_r.
      split; [subst p; rewrite <- !app_assoc; auto|]. split; auto.
      split; [rewrite <- app_assoc in N1; auto|].
      split; [simpl; change [13; b] with ([13] ++ [b]); rewrite app_assoc, ends_wsp_snoc; auto|].
      rewrite (app_assoc l [13] [b]), relaxed_line_snoc_wsp, R1 by auto.
      split; [apply snoc_neq_nil|]. split; auto. rewrite app_assoc, F. rewrite <- app_assoc. auto. }
    destruct (b =? CR) eqn:E2; simpl.
    + apply N.eqb_eq in E2. subst b.
      assert (bc_state bc1 = SCr) as B2 by (unfold flush_empty_lines in Ef; inv Ef; auto).
      eexists _, _. split; [reflexivity|]. split; [exact B1|].
      apply (byte_inv relaxed_line _ _ SCr _ [CR] _ _ ls l); try (subst p; rewrite <- !app_assoc; simpl; rewrite ?app_nil_r; reflexivity); auto; simpl; auto.
      * apply ends_wsp_snoc.
      * unfold CR; rewrite R1. apply snoc_neq_nil.
      * unfold CR; rewrite R1. rewrite app_assoc, F. rewrite <- app_assoc. auto.
    + apply N.eqb_neq in E2.
      eexists _, _. split; [reflexivity|]. split; [exact B1|].
      assert (l ++ [CR; b] = (l ++ [13]) ++ [b]) as R2 by (rewrite <- app_assoc; auto).
      apply (byte_inv relaxed_line _ _ SByte _ [CR; b] _ _ ls l); try (subst p; rewrite <- !app_assoc; simpl; rewrite ?app_nil_r; reflexivity); auto; rewrite ?R2.
      * simpl. rewrite app_nil_r. auto.
      * exists (l ++ [CR]), b. auto.
      * apply relaxed_snoc_neq; auto.
      * rewrite relaxed_line_snoc, R1, ends_wsp_snoc by auto. simpl.
        rewrite app_assoc, F. rewrite <- !app_assoc. auto.
  - (* Wsp *)
    simpl in H3. rewrite app_nil_r in *.
    assert (nc (l ++ [b]) = true) as N1.
    { apply nc_snoc; auto. intros l' El. subst l. rewrite ends_wsp_snoc in H3. discriminate. }
    destruct (b =? CR) eqn:E.
    { apply N.eqb_eq in E. subst b.
      eexists _, _. split; [reflexivity|]. split; auto.
      exists ls, l. simpl. rewrite app_nil_r. subst p. rewrite <- app_assoc. auto. }
    apply N.eqb_neq in E.
    destruct (wsp b) eqn:Ew; simpl.
    { eexists _, _. split; [reflexivity|]. split; auto. rewrite app_nil_r.
      apply (wsp_inv ls l); auto. }
    eexists _, _. split; [reflexivity|]. split; [exact B1|].
    apply (byte_inv relaxed_line _ _ SByte _ [b] _ _ ls l); try (subst p; rewrite <- !app_assoc; simpl; rewrite ?app_nil_r; reflexivity); auto.
    + rewrite app_nil_r. auto.
    + exists l, b. auto.
    + apply relaxed_snoc_neq; auto.
    + rewrite relaxed_line_snoc, H3 by auto. rewrite app_assoc, F. rewrite <- app_assoc. auto.
  - (* WspCr *)
    simpl in H3. destruct (b =? LF) eqn:E.
    { apply N.eqb_eq in E. subst b. destruct (line_end _) as [o bc'] eqn:El.
      eexists _, _. split; [reflexivity|]. split.
      { unfold line_end in El. simpl in El. destruct bl; inv El; auto. }
      pose proof (line_end_inv relaxed_line relaxed_state_ok _ p out ls l eq_refl Hcrlf Hp H1 H2 H4) as L.
      rewrite El in L. apply L. }
    apply N.eqb_neq in E.
    assert (relaxed_line (l ++ [13]) = relaxed_line l ++ [32; 13]) as R1
      by (rewrite relaxed_app_cr, H3; auto).
    assert (nc ((l ++ [13]) ++ [b]) = true) as N1 by (apply nc_after_cr; auto).
    destruct (b =? CR) eqn:E2.
    { apply N.eqb_eq in E2. subst b.
      eexists _, _. split; [reflexivity|]. split; [exact B1|].
      apply (byte_inv relaxed_line _ _ SCr _ [CR] _ _ ls l); try (subst p; rewrite <- !app_assoc; simpl; rewrite ?app_nil_r; reflexivity); auto.
      * apply ends_wsp_snoc.
      * unfold CR. rewrite R1. destruct (relaxed_line l); easy.
      * unfold CR. rewrite R1. rewrite app_assoc, F. rewrite <- app_assoc. auto. }
    apply N.eqb_neq in E2. destruct (wsp b) eqn:Ew.
    { eexists _, _. split; [reflexivity|]. split; [exact B1|].
      exists ls, (l ++ [13] ++ [b]). cbn [set_state bc_state pending bc_blank_line bc_empty_lines].
      rewrite B3, B4, app_nil_r.
      split; [subst p; rewrite <- !app_assoc; auto|]. split; auto.
      split; [rewrite <- app_assoc in N1; auto|].
      split; [simpl; change [13; b] with ([13] ++ [b]); rewrite app_assoc, ends_wsp_snoc; auto|].
      rewrite (app_assoc l [13] [b]), relaxed_line_snoc_wsp, R1 by auto.
      split; [destruct (relaxed_line l); easy|]. split; auto.
      rewrite app_assoc, F. rewrite <- app_assoc. auto. }
    eexists _, _. split; [reflexivity|]. split; [exact B1|].
    assert (l ++ [CR; b] = (l ++ [13]) ++ [b]) as R2 by (rewrite <- app_assoc; auto).
    apply (byte_inv relaxed_line _ _ SByte _ [CR; b] _ _ ls l); try (subst p; rewrite <- !app_assoc; simpl; rewrite ?app_nil_r; reflexivity); auto; rewrite ?R2.
    * simpl. rewrite app_nil_r. auto.
    * exists (l ++ [CR]), b. auto.
    * apply relaxed_snoc_neq; auto.
    * rewrite relaxed_line_snoc, R1, ends_wsp_snoc by auto. simpl.
      rewrite app_assoc, F. rewrite <- !app_assoc. auto.
  - (* Byte *)
    destruct H3 as (l' & c & E1 & E2 & E3). rewrite app_nil_r in *.
    assert (ends_wsp l = false) as Hew by (subst l; rewrite ends_wsp_snoc; auto).
    assert (bl = false) as Ebl.
    { destruct bl; auto. simpl in H4. destruct H4 as [H4 _]. subst l.
      apply relaxed_snoc_neq in H4; easy. }
    subst bl. destruct H4 as (H4 & H5 & H6). simpl in H6. subst el.
    assert (nc (l ++ [b]) = true) as N1.
    { apply nc_snoc; auto. intros l'' El. subst l. apply app_inj_tail in El. destruct El. congruence. }
    destruct (wsp b) eqn:Ew.
    { eexists _, _. split; [reflexivity|]. split; auto. rewrite app_nil_r.
      apply (wsp_inv ls l); auto. simpl. auto. }
    destruct (b =? CR) eqn:E.
    + apply N.eqb_eq in E. subst b. eexists _, _. split; [reflexivity|]. split; auto.
      exists ls, l. simpl. rewrite app_nil_r. subst p. rewrite <- !app_assoc. auto 10.
    + apply N.eqb_neq in E. eexists _, _. split; [reflexivity|]. split; auto.
      apply (byte_inv relaxed_line _ _ SByte _ [b] _ _ ls l); try (subst p; rewrite <- !app_assoc; simpl; rewrite ?app_nil_r; reflexivity); auto.
      * rewrite app_nil_r. auto.
      * exists l, b. auto.
      * apply relaxed_snoc_neq; auto.
      * rewrite relaxed_line_snoc, Hew by auto. rewrite H5, <- app_assoc. auto.
Qed.

Lemma relaxed_run : forall body,
  exists o bc', canonicalize_chunk (bc_new Relaxed) body = Val (o, bc') /\ bc_kind bc' = Relaxed
    /\ canon_inv relaxed_line relaxed_state_ok body o bc'.
Proof.
  intros. apply canon_run.
  - exists [], []. simpl. auto 10.
  - intros bc p out b Hk H. unfold canon_step. rewrite Hk. apply relaxed_step; auto.
Qed.

Theorem relaxed_body_spec : forall chunks,
  canonicalize_body Relaxed chunks = Val (impl_relaxed_body (concat chunks)).
Proof.
  intros. unfold canonicalize_body. rewrite canonicalize_chunks_concat.
  set (body := concat chunks). destruct (relaxed_run body) as (o & bc & H1 & H2 & H3).
  rewrite H1. simpl. destruct H3 as (ls & l & Hp & L1 & L2 & L3 & L4).
  unfold bc_finish. rewrite H2.
  destruct bc as [k st bl el]. simpl in *. subst k.
  (* the case of a last line with content *)
  assert (forall l', relaxed_line l' <> [] -> nc l' = true -> body = terminate ls ++ l' ->
            impl_relaxed_body body
            = (terminate (map relaxed_line ls) ++ relaxed_line l') ++ [13; 10]) as Himpl.
  { intros l' N1 N2 N3. unfold impl_relaxed_body, ends_in_wsp_line, rfc_relaxed_body.
    rewrite N3, lines_terminate by auto. rewrite last_last.
    destruct (forallb wsp l') eqn:E; [apply relaxed_line_blank in E; congruence|].
    rewrite andb_false_r. rewrite map_app. simpl map. rewrite dte_snoc.
    destruct (relaxed_line l') eqn:E2; [congruence|].
    rewrite terminate_app, terminate_one, <- app_assoc. auto. }
  assert (forall l', relaxed_line l' = [] -> nc l' = true -> body = terminate ls ++ l' ->
            impl_relaxed_body body
            = terminate (drop_trailing_empty (map relaxed_line ls))
              ++ if is_nil l' then [] else [13; 10]) as Hblank.
  { intros l' N1 N2 N3. unfold impl_relaxed_body, ends_in_wsp_line, rfc_relaxed_body.
    rewrite N3, lines_terminate by auto. rewrite last_last.
    apply relaxed_line_blank in N1. rewrite N1. apply relaxed_line_blank in N1.
    rewrite map_app. simpl map. rewrite dte_snoc, N1.
    destruct (is_nil l'); simpl; auto. rewrite app_nil_r. auto. }
  pose proof (flush_inv relaxed_line (mkBodyCanon Relaxed st bl el) _ _ _ L4) as F. cbn [fst flush_empty_lines] in F. simpl in F.
  destruct st; simpl in L3; cbn [pending] in *; rewrite ?app_nil_r in *.
  - destruct L3. subst. destruct bl; [|destruct L4; easy].
    rewrite (Hblank []); auto. destruct L4 as (_ & L4 & _). rewrite L4. reflexivity.
  - destruct L3. subst l. destruct bl; [|destruct L4; easy].
    rewrite (Hblank []); auto.
    destruct L4 as (_ & L4 & _). rewrite L4. simpl. rewrite !app_nil_r. auto.
  - assert (relaxed_line (l ++ [13]) = relaxed_line l ++ [13]) as R1
      by (rewrite relaxed_app_cr, L3; auto).
    rewrite (Himpl (l ++ [13])); auto.
    2:{ rewrite R1. apply snoc_neq_nil. }
    unfold flush_empty_lines. simpl. rewrite R1. f_equal.
    rewrite app_assoc, F. rewrite <- !app_assoc. auto.
  - assert (l <> []) as Hl by (intro; subst; discriminate).
    assert (is_nil l = false) as Hl2 by (apply is_nil_false; auto).
    destruct bl; destruct L4 as (L4 & L5 & L6).
    + rewrite (Hblank l); auto. rewrite Hl2, L5. auto.
    + rewrite (Himpl l); auto. rewrite L5. auto.
  - assert (relaxed_line (l ++ [13]) = relaxed_line l ++ [32; 13]) as R1
      by (rewrite relaxed_app_cr, L3; auto).
    rewrite (Himpl (l ++ [13])); auto.
    2:{ rewrite R1. destruct (relaxed_line l); easy. }
    unfold flush_empty_lines. simpl. rewrite R1. f_equal.
    rewrite app_assoc, F. rewrite <- !app_assoc. auto.
  - destruct L3 as (l' & c & E & E2 & E3).
    destruct bl.
    { destruct L4 as [L4 _]. subst. apply relaxed_snoc_neq in L4; easy. }
    destruct L4 as (L4 & L5 & _). rewrite (Himpl l); auto. f_equal. rewrite L5. auto.
Qed.
