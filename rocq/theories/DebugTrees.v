(** Proofs about [Debug] texts: structures, and the lines of their indented form. *)

From Coq Require Import String List.
From Verif Require Import Lib Base Utf8 Canon Domain Signature KeyRecord Format Verify Report Debug SpecCanon SpecFormat SpecDebug SpecPrograms DebugProofs.
Import ListNotations.
Open Scope N_scope.

(** ** Induction *)

Section Induction.
Variable P : Tree -> Prop.
Hypothesis HText : forall s, P (Text s).
Hypothesis HTuple : forall name l, Forall P l -> P (Tuple name l).
Hypothesis HStruct : forall name l, Forall (fun nv => P (snd nv)) l -> P (Struct name l).
Hypothesis HItems : forall l, Forall P l -> P (Items l).
Fixpoint tree_induction (t : Tree) : P t :=
  match t with
  | Text s => HText s
  | Tuple name l =>
      HTuple name l ((fix go l := match l return Forall P l with
                                  | [] => Forall_nil P
                                  | x :: l' => Forall_cons x (tree_induction x) (go l')
                                  end) l)
  | Struct name l =>
      HStruct name l ((fix go l := match l return Forall (fun nv => P (snd nv)) l with
                                   | [] => Forall_nil (fun nv => P (snd nv))
                                   | (n, x) :: l' => Forall_cons (n, x) (tree_induction x) (go l')
                                   end) l)
  | Items l =>
      HItems l ((fix go l := match l return Forall P l with
                             | [] => Forall_nil P
                             | x :: l' => Forall_cons x (tree_induction x) (go l')
                             end) l)
  end.
End Induction.

(** ** One line *)

(** the texts in a structure *)
Fixpoint texts (t : Tree) : list str :=
  match t with
  | Text s => [s]
  | Tuple name l => name :: flat_map texts l
  | Struct name l => name :: flat_map (fun '(n, v) => n :: texts v) l
  | Items l => flat_map texts l
  end.

Lemma comma_one_line : forall l, Forall one_line l -> one_line (comma_separated l).
Proof.
  induction 1 as [|x l H _ IH]; [constructor|]. destruct l as [|y l]; [exact H|].
  change (comma_separated (x :: y :: l)) with (x ++ lit ", " ++ comma_separated (y :: l)).
  rewrite !one_line_app. split; [exact H|]. split; [apply one_line_b; reflexivity|exact IH].
Qed.

Lemma compact_one_line : forall t, Forall one_line (texts t) -> one_line (compact t).
Proof.
  induction t as [s|name l IH|name l IH|l IH] using tree_induction; intros H.
  - inv H. assumption.
  - cbn [texts] in H. inv H. cbn [compact]. destruct (is_nil l); [assumption|].
    rewrite !one_line_app. split; [assumption|]. split; [apply one_line_b; reflexivity|]. split.
    + apply comma_one_line. revert H3. induction IH as [|x l Hx _ IH]; intros H3; [constructor|].
      cbn [flat_map] in H3. apply Forall_app in H3 as [A B]. cbn [map]. constructor; auto.
    + split; [destruct (is_nil name && Nat.eqb (length l) 1); apply one_line_b; reflexivity|apply one_line_b; reflexivity].
  - cbn [texts] in H. inv H. cbn [compact]. destruct (is_nil l); [assumption|].
    rewrite !one_line_app. split; [assumption|]. split; [apply one_line_b; reflexivity|]. split; [|apply one_line_b; reflexivity].
    apply comma_one_line. revert H3. induction IH as [|[n x] l Hx _ IH]; intros H3; [constructor|].
    cbn [flat_map app] in H3. inv H3. apply Forall_app in H4 as [A B]. cbn [map]. constructor; auto.
    rewrite !one_line_app. split; [assumption|]. split; [apply one_line_b; reflexivity|auto].
  - cbn [compact texts] in *. rewrite !one_line_app. split; [apply one_line_b; reflexivity|]. split; [|apply one_line_b; reflexivity].
    apply comma_one_line. revert H. induction IH as [|x l Hx _ IH]; intros H3; [constructor|].
    cbn [flat_map] in H3. apply Forall_app in H3 as [A B]. cbn [map]. constructor; auto.
Qed.

(** ** Lines *)

Definition indent (l : str) : str := lit "    " ++ l.

Lemma lines_app : forall a b, lines (a ++ [10] ++ b) = lines a ++ lines b.
Proof.
  induction a as [|c a IH]; intros b; [reflexivity|]. cbn [app lines split_on]. fold (lines (a ++ [10] ++ b)). fold (lines a).
  change (split_on 10 (a ++ 10 :: b)) with (lines (a ++ [10] ++ b)).
  rewrite IH. destruct (c =? 10); [reflexivity|]. unfold lines. destruct (split_on 10 a) eqn:E; [|reflexivity].
  destruct (split_on_nonempty 10 a E).
Qed.

Lemma lines_one : forall l, ~ In 10 l -> lines l = [l].
Proof. intros l H. apply split_on_none. exact H. Qed.

Lemma pad_lines : forall s b, exists l ls, lines s = l :: ls
  /\ lines (pad b (s ++ [10])) = ((if b then lit "    " else []) ++ l) :: map indent ls ++ [[]].
Proof.
  induction s as [|c s IH]; intros b.
  - exists [], []. split; [reflexivity|]. destruct b; reflexivity.
  - cbn [app pad]. destruct (IH (c =? 10)) as (l & ls & E1 & E2).
    unfold lines in *. cbn [split_on]. destruct (c =? 10) eqn:E.
    + apply N.eqb_eq in E. subst c. rewrite E1. exists [], (l :: ls). split; [reflexivity|].
      change ((if b then lit "    " else []) ++ 10 :: pad true (s ++ [10]))
        with ((if b then lit "    " else []) ++ [10] ++ pad true (s ++ [10])).
      pose proof (lines_app (if b then lit "    " else []) (pad true (s ++ [10]))) as L. unfold lines in L.
      rewrite L, E2. destruct b; reflexivity.
    + rewrite E1. exists (c :: l), ls. split; [reflexivity|]. destruct b.
      * change (split_on 10 (lit "    " ++ c :: pad false (s ++ [10]))) with
          (let k := split_on 10 (c :: pad false (s ++ [10])) in
           match match match match k with p :: ps => (32 :: p) :: ps | [] => [[32]] end with
                       | p :: ps => (32 :: p) :: ps | [] => [[32]] end with
                 | p :: ps => (32 :: p) :: ps | [] => [[32]] end with
           | p :: ps => (32 :: p) :: ps | [] => [[32]] end).
        cbn [split_on]. rewrite E, E2. reflexivity.
      * cbn [app split_on]. rewrite E, E2. reflexivity.
Qed.

Lemma indented : forall s, lines (pad true (s ++ [10])) = map indent (lines s) ++ [[]].
Proof. intros s. destruct (pad_lines s true) as (l & ls & -> & ->). reflexivity. Qed.

(** text that ends in a line break *)
Lemma lines_closed : forall a b ls, lines a = ls ++ [[]] -> lines (a ++ b) = ls ++ lines b.
Proof.
  intros a b ls H. assert (a = [] /\ ls = [] \/ exists a', a = a' ++ [10]) as [[-> ->]|[a' ->]].
  - destruct (snoc_cases _ a) as [->|(a' & c & ->)].
    + left. split; [reflexivity|]. destruct ls as [|x ls]; [reflexivity|]. apply (f_equal (@length _)) in H.
      rewrite app_length in H. simpl in H. lia.
    + right. exists a'. f_equal. f_equal. destruct (c =? 10) eqn:E; [apply N.eqb_eq in E; assumption|]. exfalso.
      revert ls H. induction a' as [|x a' IH]; intros ls H.
      * unfold lines in H. cbn [app split_on] in H. rewrite E in H. destruct ls as [|y [|z ls]]; discriminate.
      * unfold lines in *. cbn [app split_on] in H. destruct (split_on 10 (a' ++ [c])) eqn:X; [destruct (split_on_nonempty _ _ X)|].
        destruct (x =? 10).
        -- destruct ls as [|y ls]; [discriminate|]. injection H as <- H. eapply IH. exact H.
        -- destruct ls as [|y ls]; [discriminate|]. injection H as <- H. apply (IH (l :: ls)). rewrite H. reflexivity.
  - reflexivity.
  - rewrite <- app_assoc, lines_app. rewrite <- (app_nil_r (a' ++ [10])), <- app_assoc in H. rewrite lines_app in H.
    apply app_inv_tail in H. rewrite H. reflexivity.
Qed.

Lemma lines_flat : forall A (f : A -> str) (g : A -> list str) l b, (forall x, lines (f x) = g x ++ [[]]) ->
  lines (flat_map f l ++ b) = flat_map g l ++ lines b.
Proof.
  intros A f g l b H. induction l as [|x l IH]; [reflexivity|]. cbn [flat_map]. rewrite <- !app_assoc.
  rewrite (lines_closed _ _ _ (H x)), IH. reflexivity.
Qed.

(** the lines of a structure *)
Definition field_lines (nv : str * Tree) : list str := map indent (lines (fst nv ++ lit ": " ++ pretty (snd nv) ++ lit ",")).

Lemma struct_lines : forall name l, l <> [] -> ~ In 10 name ->
  lines (pretty (Struct name l)) = [name ++ lit " {"] ++ flat_map field_lines l ++ [lit "}"].
Proof.
  intros name l H N. cbn [pretty]. replace (is_nil l) with false by (destruct l; [congruence|reflexivity]).
  rewrite (app_assoc name). rewrite lines_app, lines_one.
  2: { intros X. apply in_app_iff in X as [X|X]; [auto|]. simpl in X. intuition discriminate. }
  f_equal. rewrite (lines_flat _ _ field_lines); [reflexivity|]. intros [n v]. cbn [fst snd].
  change (n ++ lit ": " ++ pretty v ++ lit "," ++ [10]) with (n ++ lit ": " ++ pretty v ++ (lit "," ++ [10])).
  rewrite !app_assoc. rewrite indented. unfold field_lines. cbn [fst snd]. rewrite !app_assoc. reflexivity.
Qed.

(** ** The lines for a result *)

Lemma dec_no_break : forall n, ~ In 10 (dec_str n).
Proof.
  intros n. assert (forall fuel m acc, ~ In 10 acc -> ~ In 10 (dec_loop fuel m acc)) as X.
  { induction fuel as [|f IH]; intros m acc H; [exact H|]. cbn [dec_loop].
    assert (~ In 10 (48 + m mod 10 :: acc)) as Y by (intros [Y|Y]; [lia|auto]).
    destruct (m / 10 =? 0); auto. }
  apply X. intros [].
Qed.

Lemma filter_none : forall A (f : A -> bool) l, Forall (fun x => f x = false) l -> filter f l = [].
Proof. induction 1 as [|x l H _ IH]; [reflexivity|]. cbn [filter]. rewrite H. exact IH. Qed.

Lemma field_text : forall n s, ~ In 10 n -> ~ In 10 s -> field_lines (n, Text s) = [indent (n ++ lit ": " ++ s ++ lit ",")].
Proof.
  intros n s H1 H2. unfold field_lines. cbn [fst snd pretty]. rewrite lines_one; [reflexivity|].
  rewrite !in_app_iff. simpl. intuition discriminate.
Qed.

Lemma field_tuple : forall n name x, ~ In 10 n -> ~ In 10 name ->
  field_lines (n, Tuple name [x]) = [indent (n ++ lit ": " ++ name ++ lit "(")]
    ++ map (fun l => indent (indent l)) (lines (pretty x ++ lit ",")) ++ [indent (lit "),")].
Proof.
  intros n name x H1 H2. unfold field_lines. cbn [fst snd pretty is_nil flat_map]. rewrite app_nil_r.
  replace (n ++ lit ": " ++ (name ++ lit "(" ++ [10] ++ pad true (pretty x ++ lit "," ++ [10]) ++ lit ")") ++ lit ",")
    with ((n ++ lit ": " ++ name ++ lit "(") ++ [10] ++ (pad true ((pretty x ++ lit ",") ++ [10]) ++ (lit ")" ++ lit ",")))
    by (rewrite <- !app_assoc; reflexivity).
  rewrite lines_app, lines_one; [|rewrite !in_app_iff; simpl; intuition discriminate].
  rewrite (lines_closed _ _ _ (indented _)). rewrite !map_app, map_map. reflexivity.
Qed.

Lemma deep_no_status : forall ls, filter (begins (lit "    status: ")) (map (fun l => indent (indent l)) ls) = [].
Proof. intros ls. apply filter_none. apply Forall_forall. intros x I. apply in_map_iff in I as (l & <- & _). reflexivity. Qed.

Ltac no_break := simpl; intuition discriminate.

Lemma option_no_status : forall A n (f : A -> Tree) o, ~ In 10 n -> (forall l, begins (lit "status: ") (n ++ l) = false) ->
  filter (begins (lit "    status: ")) (field_lines (n, option_tree f o)) = [].
Proof.
  intros A n f o H X. destruct o as [a|]; cbn [option_tree].
  - rewrite field_tuple; [|assumption|no_break]. rewrite !filter_app, deep_no_status.
    change (filter (begins (lit "    status: ")) [indent (n ++ lit ": " ++ lit "Some" ++ lit "(")])
      with (if begins (lit "status: ") (n ++ lit ": " ++ lit "Some" ++ lit "(") then [indent (n ++ lit ": " ++ lit "Some" ++ lit "(")] else []).
    rewrite X. reflexivity.
  - rewrite field_text; [|assumption|no_break].
    change (filter (begins (lit "    status: ")) [indent (n ++ lit ": " ++ lit "None" ++ lit ",")])
      with (if begins (lit "status: ") (n ++ lit ": " ++ lit "None" ++ lit ",") then [indent (n ++ lit ": " ++ lit "None" ++ lit ",")] else []).
    rewrite X. reflexivity.
Qed.

Section WithTables.
Variable T : Tables.
Notation show := (show_result T).

Lemma result_lines : forall r, lines (show r) = [lit "VerificationResult {"]
  ++ field_lines (lit "status", status_tree T (vr_status r))
  ++ field_lines (lit "index", number_tree (N.of_nat (vr_index r)))
  ++ field_lines (lit "signature", option_tree (sig_tree T) (vr_signature r))
  ++ field_lines (lit "key_record", option_tree (record_tree T) (vr_key_record r)) ++ [lit "}"].
Proof.
  intros r. unfold show_result, result_tree. rewrite struct_lines; [|discriminate|no_break].
  cbn [flat_map]. rewrite app_nil_r, <- !app_assoc. reflexivity.
Qed.

Lemma result_status : forall r, filter (begins (lit "    status: ")) (lines (show r)) = [verdict_line r].
Proof.
  intros r. rewrite result_lines, !filter_app. rewrite !option_no_status; [|no_break|reflexivity|no_break|reflexivity].
  unfold number_tree. rewrite (field_text (lit "index")); [|no_break|apply dec_no_break].
  unfold verdict_line. destruct (vr_status r) as [|e]; cbn [status_tree].
  - rewrite field_text; [|no_break|no_break]. reflexivity.
  - rewrite field_tuple; [|no_break|no_break]. rewrite !filter_app, deep_no_status. reflexivity.
Qed.

Lemma field_indented : forall nv, exists ls, field_lines nv = map indent ls.
Proof. intros nv. eexists. reflexivity. Qed.

Lemma indented_no : forall p ls, begins p (lit " ") = false -> (forall l, begins p (32 :: l) = false) -> filter (begins p) (map indent ls) = [].
Proof. intros p ls _ H. apply filter_none. apply Forall_forall. intros x I. apply in_map_iff in I as (l & <- & _). apply H. Qed.

Lemma result_no_heading : forall r, filter (begins (lit "SIGNATURE ")) (lines (show r)) = [].
Proof.
  intros r. rewrite result_lines, !filter_app.
  repeat match goal with |- context [field_lines ?nv] =>
    let ls := fresh in let E := fresh in destruct (field_indented nv) as (ls & E); rewrite E; clear E end.
  rewrite !indented_no by reflexivity. reflexivity.
Qed.

Theorem report_lines : forall i rs t, listing show (N.of_nat i) rs t ->
  lines_with (lit "    status: ") t = map verdict_line rs
  /\ Forall2 (fun j l => exists d, decimal_text d (N.of_nat j) /\ l = lit "SIGNATURE " ++ d)
       (seq i (length rs)) (lines_with (lit "SIGNATURE ") t).
Proof.
  intros i rs t H. remember (N.of_nat i) as n eqn:En. revert i En.
  induction H as [n|n r rs d t D L IH]; intros i En.
  - split; [reflexivity|constructor].
  - destruct (IH (S i)) as [A B]; [lia|].
    assert (~ In 10 d) as Nd.
    { intros X. destruct D as (_ & D & _). rewrite Forall_forall in D. specialize (D _ X). simpl in D. lia. }
    assert (forall p, lines_with p ([10] ++ lit "SIGNATURE " ++ d ++ [10] ++ show r ++ [10] ++ t)
      = filter (begins p) [[]] ++ filter (begins p) [lit "SIGNATURE " ++ d] ++ filter (begins p) (lines (show r)) ++ lines_with p t) as F.
    { intros p. unfold lines_with. change (lines ([10] ++ lit "SIGNATURE " ++ d ++ [10] ++ show r ++ [10] ++ t))
        with (lines ([] ++ [10] ++ (lit "SIGNATURE " ++ d ++ [10] ++ show r ++ [10] ++ t))).
      rewrite lines_app. rewrite (app_assoc (lit "SIGNATURE ")), lines_app, lines_app.
      rewrite (lines_one (lit "SIGNATURE " ++ d)) by (rewrite in_app_iff; simpl; intuition discriminate). rewrite !filter_app. reflexivity. }
    split.
    + rewrite F, result_status, A. reflexivity.
    + rewrite F, result_no_heading. cbn [length seq]. constructor; [|exact B]. exists d. subst n. auto.
Qed.
End WithTables.
