(** Proofs about [Debug] texts: what is shown can be told from the text. *)

From Coq Require Import String List.
From Verif Require Import Lib Base Utf8 Base64 Canon BodyHash TagList Domain Signature KeyRecord Crypto Format Verify Report Debug
  SpecText SpecHeader SpecTag SpecCanon SpecDomain SpecFormat SpecSig SpecDebug Base64Proofs Utf8Proofs FormatProofs OutputProofs ReportProofs
  ProgramsProofs DebugProofs DebugTrees.
Import ListNotations.
Open Scope N_scope.

(** ** Reading a text from the front *)

(** the values satisfying [P] can be told from texts that begin with them, if
    what follows is [ok] *)
Definition reads {A} (P : A -> Prop) (f : A -> str) (ok : str -> Prop) : Prop :=
  forall a b r s, P a -> P b -> ok r -> ok s -> f a ++ r = f b ++ s -> a = b /\ r = s.

Definition any (r : str) : Prop := True.
Definition comma (r : str) : Prop := exists r', r = lit ", " ++ r'.
Definition before (c : char) (r : str) : Prop := exists r', r = c :: r'.

Lemma reads_weaken : forall A (P : A -> Prop) f ok (ok' : str -> Prop), reads P f ok -> (forall r, ok' r -> ok r) -> reads P f ok'.
Proof. unfold reads. eauto. Qed.

Lemma reads_inj : forall A (P : A -> Prop) f (ok : str -> Prop), reads P f ok -> ok [] -> forall a b, P a -> P b -> f a = f b -> a = b.
Proof. intros A P f ok H K a b Ha Hb E. apply (H a b [] []); auto. rewrite E. reflexivity. Qed.

Lemma span : forall (q : char -> Prop) x y c d r s, Forall q x -> Forall q y -> ~ q c -> ~ q d ->
  x ++ c :: r = y ++ d :: s -> x = y /\ c :: r = d :: s.
Proof.
  intros q x y c d r s H. revert y. induction H as [|a x Ha _ IH]; intros y Hy Hc Hd E.
  - destruct Hy as [|b y Hb _]; [auto|]. cbn [app] in E. injection E as -> _. contradiction.
  - destruct Hy as [|b y Hb Hy]; cbn [app] in E.
    + injection E as -> _. contradiction.
    + injection E as -> E. destruct (IH y Hy Hc Hd E) as [-> X]. auto.
Qed.

Lemma reads_span : forall A (P : A -> Prop) f (q : char -> Prop) (ok : str -> Prop),
  (forall a, P a -> Forall q (f a)) -> (forall a b, P a -> P b -> f a = f b -> a = b) ->
  (forall r, ok r -> exists c r', r = c :: r' /\ ~ q c) -> reads P f ok.
Proof.
  intros A P f q ok H I K a b r s Ha Hb Hr Hs E. apply K in Hr as (c & r' & -> & Hc). apply K in Hs as (d & s' & -> & Hd).
  destruct (span q _ _ _ _ _ _ (H a Ha) (H b Hb) Hc Hd E) as [X Y]. auto.
Qed.

(** with constant text in front and behind *)
Lemma reads_wrap : forall A (P : A -> Prop) f (ok ok' : str -> Prop) pre post, reads P f ok ->
  (forall r, ok' r -> ok (post ++ r)) -> reads P (fun a => pre ++ f a ++ post) ok'.
Proof.
  intros A P f ok ok' pre post H K a b r s Ha Hb Hr Hs E. rewrite <- !app_assoc in E. apply app_inv_head in E.
  apply H in E as [-> E]; auto. apply app_inv_head in E. auto.
Qed.

Lemma reads_ext : forall A (P : A -> Prop) f g ok, (forall a, P a -> f a = g a) -> reads P f ok -> reads P g ok.
Proof. intros A P f g ok H R a b r s Ha Hb Hr Hs E. rewrite <- !H in E by assumption. eauto. Qed.

(** one value after the other *)
Lemma reads_pair : forall A B (P : A -> Prop) (Q : B -> Prop) f g okf okg, reads P f okf -> reads Q g okg ->
  (forall b r, Q b -> okg r -> okf (g b ++ r)) ->
  reads (fun p => P (fst p) /\ Q (snd p)) (fun p => f (fst p) ++ g (snd p)) okg.
Proof.
  intros A B P Q f g okf okg F G K [a b] [a' b'] r s [Ha Hb] [Ha' Hb'] Hr Hs E. cbn [fst snd] in *.
  rewrite <- !app_assoc in E. apply F in E as [-> E]; auto. apply G in E as [-> E]; auto.
Qed.

Lemma compact_tuple : forall name t, name <> [] -> compact (Tuple name [t]) = (name ++ lit "(") ++ compact t ++ lit ")".
Proof. intros [|c name] t H; [contradiction|]. rewrite <- app_assoc. reflexivity. Qed.
Lemma compact_pair : forall t u, compact (Tuple [] [t; u]) = lit "(" ++ (compact t ++ lit ", " ++ compact u) ++ lit ")".
Proof. intros. cbn [compact is_nil map comma_separated]. rewrite !app_nil_l. reflexivity. Qed.

Lemma reads_option : forall A (P : A -> Prop) (f : A -> Tree), reads P (fun a => compact (f a)) (before 41) ->
  reads (fun o => forall a, o = Some a -> P a) (fun o => compact (option_tree f o)) any.
Proof.
  intros A P f H a b r s Ha Hb _ _ E. destruct a as [a|], b as [b|]; unfold option_tree in E;
    rewrite ?compact_tuple in E by discriminate.
  - rewrite <- !app_assoc in E. do 2 apply app_inv_head in E. apply H in E as [-> E]; eauto; [|eexists; reflexivity..].
    apply app_inv_head in E. auto.
  - discriminate E.
  - discriminate E.
  - apply app_inv_head in E. auto.
Qed.

(** ** Lists *)

Definition list_end (l : list str) : str :=
  match l with
  | [] => lit "]"
  | _ => lit ", " ++ comma_separated l ++ lit "]"
  end.

Lemma items_text : forall x l, comma_separated (x :: l) ++ lit "]" = x ++ list_end l.
Proof. intros x [|y l]; [reflexivity|]. cbn [comma_separated list_end]. rewrite <- !app_assoc. reflexivity. Qed.

Lemma list_end_cons : forall y l, list_end (y :: l) = lit ", " ++ y ++ list_end l.
Proof. intros y l. unfold list_end at 1. rewrite items_text. reflexivity. Qed.

Lemma reads_list_end : forall A (P : A -> Prop) (f : A -> str), reads P f any ->
  reads (Forall P) (fun l => list_end (map f l)) any.
Proof.
  intros A P f H l. induction l as [|a l IH]; intros m r s Hl Hm _ _ E; destruct m as [|b m]; cbn [map] in E;
    rewrite ?list_end_cons, <- ?app_assoc in E.
  - apply app_inv_head in E. auto.
  - discriminate E.
  - discriminate E.
  - inv Hl. inv Hm. apply app_inv_head in E. apply H in E as [-> E]; [|assumption || exact I..].
    apply IH in E as [-> E]; [auto|assumption || exact I..].
Qed.

(** entries that do not look like the end of the list *)
Lemma reads_items : forall A (P : A -> Prop) (f : A -> Tree), reads P (fun a => compact (f a)) any ->
  (forall a, P a -> exists c t, compact (f a) = c :: t /\ c <> 93) ->
  reads (Forall P) (fun l => compact (Items (map f l))) any.
Proof.
  intros A P f H K l m r s Hl Hm _ _ E. cbn [compact] in E. rewrite !map_map, <- !app_assoc in E. apply app_inv_head in E.
  rewrite !app_assoc in E.
  destruct l as [|a l], m as [|b m]; cbn [map] in E.
  - apply app_inv_head in E. auto.
  - rewrite items_text, <- app_assoc in E. inv Hm. destruct (K b) as (c & t & X & N); [assumption|]. rewrite X in E.
    cbn [app] in E. apply (f_equal (hd 93)) in E. cbn [hd] in E. symmetry in E. contradiction.
  - rewrite items_text, <- app_assoc in E. inv Hl. destruct (K a) as (c & t & X & N); [assumption|]. rewrite X in E.
    cbn [app] in E. apply (f_equal (hd 93)) in E. cbn [hd] in E. contradiction.
  - rewrite !items_text, <- !app_assoc in E. inv Hl. inv Hm. apply H in E as [-> E]; [|assumption || exact I..].
    apply (reads_list_end A P (fun a => compact (f a)) H) in E as [-> E]; [auto|assumption || exact I..].
Qed.

Lemma reads_tuple2 : forall A B (P : A -> Prop) (Q : B -> Prop) (f : A -> Tree) (g : B -> Tree),
  reads P (fun a => compact (f a)) comma -> reads Q (fun b => compact (g b)) (before 41) ->
  reads (fun p => P (fst p) /\ Q (snd p)) (fun p => compact (let '(a, b) := p in Tuple [] [f a; g b])) any.
Proof.
  intros A B P Q f g F G [a b] [a' b'] r s [Ha Hb] [Ha' Hb'] _ _ E. cbn [fst snd] in *.
  rewrite !compact_pair, <- !app_assoc in E. apply app_inv_head in E. apply F in E as [-> E]; auto; [|eexists; reflexivity..].
  apply app_inv_head in E. apply G in E as [-> E]; auto; [|eexists; reflexivity..]. apply app_inv_head in E. auto.
Qed.
Lemma tuple2_first : forall (t u : Tree), exists c x, compact (Tuple [] [t; u]) = c :: x /\ c <> 93.
Proof. intros. rewrite compact_pair. eexists _, _. split; [reflexivity|discriminate]. Qed.

(** ** Values *)

Section WithTables.
Variable T : Tables.
Hypothesis Tables_ok : tables_ok T.

Lemma reads_bytes : reads (Forall is_byte) (bytes_debug T) any.
Proof. intros a b r s Ha Hb _ _ E. apply quoted_prefix with (bs := a) (bs' := b) in E; [assumption|apply bytes_quoted; assumption..]. Qed.

Lemma reads_str : reads (Forall is_scalar) (str_debug T) any.
Proof.
  intros a b r s Ha Hb _ _ E. apply quoted_prefix with (bs := as_bytes a) (bs' := as_bytes b) in E; [|apply str_quoted; assumption..].
  destruct E as [X ->]. split; [|reflexivity]. apply as_bytes_inj; assumption.
Qed.

Lemma reads_number : forall c, ~ (48 <= c <= 57) -> reads (fun _ => True) (fun n => compact (number_tree n)) (before c).
Proof.
  intros c N. apply reads_span with (q := fun c => 48 <= c <= 57).
  - intros n _. destruct (dec_str_spec n) as (_ & D & _). exact D.
  - intros a b _ _ E. cbn [number_tree compact] in E. pose proof (dec_str_spec a) as A. pose proof (dec_str_spec b) as B. rewrite E in A.
    destruct A as (_ & _ & A & _), B as (_ & _ & B & _). congruence.
  - intros r (r' & ->). eauto.
Qed.

Definition b64_class (c : char) : Prop := 65 <= c <= 90 \/ 97 <= c <= 122 \/ 47 <= c <= 57 \/ c = 43 \/ c = 61.
Lemma encode_class : forall bs, Forall is_byte bs -> Forall b64_class (encode_base64 bs).
Proof. intros bs H. apply Forall_forall. intros c. apply encode_base64_chars. exact H. Qed.
Lemma encode_inj : forall a b, Forall is_byte a -> Forall is_byte b -> encode_base64 a = encode_base64 b -> a = b.
Proof. intros a b Ha Hb E. apply decode_encode_base64 in Ha, Hb. congruence. Qed.
Lemma encode_nil : forall bs, is_nil (encode_base64 bs) = is_nil bs.
Proof. intros [|a [|b [|c bs]]]; reflexivity. Qed.

Lemma base64_text_cases : forall bs, compact (base64_tree bs) =
  match bs with [] => lit "Empty" | _ => (lit "Base64" ++ lit "(") ++ encode_base64 bs ++ lit ")" end.
Proof.
  intros bs. unfold base64_tree. rewrite encode_nil. destruct bs; [reflexivity|]. cbn [is_nil].
  rewrite compact_tuple by discriminate. reflexivity.
Qed.

Lemma reads_base64 : reads (Forall is_byte) (fun bs => compact (base64_tree bs)) any.
Proof.
  intros a b r s Ha Hb _ _ E. rewrite !base64_text_cases in E.
  destruct a as [|a0 a], b as [|b0 b]; rewrite <- ?app_assoc in E; [|discriminate E..|].
  - apply app_inv_head in E. auto.
  - do 2 apply app_inv_head in E. apply (span b64_class) in E.
    + destruct E as [X Y]. apply encode_inj in X; auto. split; [assumption|]. apply (f_equal (@tl _)) in Y. exact Y.
    + apply encode_class; assumption.
    + apply encode_class; assumption.
    + unfold b64_class. intros X. vm_compute in X. intuition congruence.
    + unfold b64_class. intros X. vm_compute in X. intuition congruence.
Qed.

(** pairs of texts *)
Definition pair_ok (p : str * str) : Prop := Forall is_scalar (fst p) /\ Forall is_scalar (snd p).
Lemma reads_tags : reads (Forall pair_ok) (fun l => compact (tags_tree T l)) any.
Proof.
  apply (reads_items _ pair_ok (fun '(n, v) => Tuple [] [str_tree T n; str_tree T v])).
  - apply (reads_tuple2 _ _ (Forall is_scalar) (Forall is_scalar) (str_tree T) (str_tree T)).
    + eapply reads_weaken; [apply reads_str|]. intros; exact I.
    + eapply reads_weaken; [apply reads_str|]. intros; exact I.
  - intros [n v] _. apply tuple2_first.
Qed.

(** header fields *)
Definition field_ok (p : FieldName * list byte) : Prop := field_name (fst p) /\ Forall is_byte (snd p).

Lemma reads_name : reads field_name (fun n => compact (name_tree n)) comma.
Proof.
  intros a b r s [_ Ha] [_ Hb] (r' & ->) (s' & ->) E. cbn [name_tree compact] in E.
  change (lit ", ") with ([44] ++ [32]) in E. rewrite !app_assoc in E. rewrite <- !(app_assoc _ [32]) in E. cbn [app] in E.
  apply (span (fun c => c <> 32)) in E; [|..].
  - destruct E as [X Y]. apply app_inv_tail in X. apply (f_equal (@tl _)) in Y. cbn [tl] in Y. subst. auto.
  - apply Forall_app. split; [|repeat constructor; discriminate]. eapply Forall_impl; [|exact Ha]. unfold ftext. intros; lia.
  - apply Forall_app. split; [|repeat constructor; discriminate]. eapply Forall_impl; [|exact Hb]. unfold ftext. intros; lia.
  - congruence.
  - congruence.
Qed.

Lemma reads_copied : reads (Forall field_ok) (fun l => compact (copied_tree T l)) any.
Proof.
  apply (reads_items _ field_ok (fun '(n, v) => Tuple [] [name_tree n; Text (bytes_debug T v)])).
  - apply (reads_tuple2 _ _ field_name (Forall is_byte) name_tree (fun v => Text (bytes_debug T v))); [apply reads_name|].
    eapply reads_weaken; [apply reads_bytes|]. intros; exact I.
  - intros [n v] _. apply tuple2_first.
Qed.

Lemma reads_header : reads (Forall field_ok) (fun h => compact (header_tree T h)) any.
Proof.
  unfold header_tree. apply reads_ext with (f := fun h => (lit "HeaderFields" ++ lit "(") ++ compact (copied_tree T h) ++ lit ")").
  - intros h _. rewrite compact_tuple by discriminate. reflexivity.
  - apply reads_wrap with (ok := any); [apply reads_copied|]. intros; exact I.
Qed.

(** ** Names of signed headers *)

Fixpoint spaced (ts : list str) : str :=
  match ts with
  | [] => []
  | t :: ts' => t ++ 32 :: spaced ts'
  end.
Fixpoint name_tokens (l : list str) : list str :=
  match l with
  | [] => [lit "],"]
  | [n] => [n ++ lit "],"]
  | n :: l' => (n ++ lit ",") :: name_tokens l'
  end.
Definition token (t : str) : Prop := Forall (fun c => c <> 32) t /\ ~ In 58 t.

Lemma names_spaced : forall l, comma_separated l ++ lit "], " = spaced (name_tokens l).
Proof.
  induction l as [|n l IH]; [reflexivity|]. destruct l as [|m l].
  - cbn [comma_separated name_tokens spaced]. rewrite <- app_assoc. reflexivity.
  - change (comma_separated (n :: m :: l)) with (n ++ lit ", " ++ comma_separated (m :: l)).
    change (name_tokens (n :: m :: l)) with ((n ++ lit ",") :: name_tokens (m :: l)). cbn [spaced].
    rewrite <- IH, <- !app_assoc. reflexivity.
Qed.

Lemma token_app : forall n t, field_name n -> token t -> token (n ++ t).
Proof.
  intros n t [_ H] [A B]. split.
  - apply Forall_app. split; [|assumption]. eapply Forall_impl; [|exact H]. unfold ftext. intros; lia.
  - rewrite in_app_iff. intros [X|X]; [|contradiction]. rewrite Forall_forall in H. apply H in X. unfold ftext in X. lia.
Qed.
Lemma token_b : forall t, forallb (fun c => negb (c =? 32) && negb (c =? 58)) t = true -> token t.
Proof.
  intros t H. rewrite forallb_forall in H. split; [apply Forall_forall|]; intros; [apply H in H0; lia|]. intros X. apply H in X. discriminate.
Qed.

Lemma names_tokens : forall l, Forall field_name l -> Forall token (name_tokens l).
Proof.
  induction 1 as [|n l Hn Hl IH]; [constructor; [apply token_b; reflexivity|constructor]|].
  destruct l as [|m l]; (constructor; [apply token_app; [assumption|apply token_b; reflexivity]|]); [constructor|exact IH].
Qed.

Lemma tokens_inj : forall l m, Forall field_name l -> Forall field_name m -> name_tokens l = name_tokens m -> l = m.
Proof.
  assert (forall n l, length (name_tokens (n :: l)) = S (length l)) as L.
  { intros n l. revert n. induction l as [|m l IH]; intros n; [reflexivity|].
    change (name_tokens (n :: m :: l)) with ((n ++ lit ",") :: name_tokens (m :: l)). cbn [length]. rewrite IH. reflexivity. }
  assert (forall n, field_name n -> n ++ lit "]," <> lit "],") as N.
  { intros n [N _] E. apply N. apply (app_inv_tail (lit "],")). exact E. }
  induction l as [|a l IH]; intros m Hl Hm E.
  - destruct m as [|b m]; [reflexivity|]. exfalso. destruct m as [|c m].
    + inv Hm. cbn [name_tokens] in E. injection E as E. apply (N b); [assumption|]. symmetry. exact E.
    + apply (f_equal (@length _)) in E. rewrite L in E. discriminate.
  - inv Hl. destruct m as [|b m].
    + exfalso. destruct l as [|c l].
      * cbn [name_tokens] in E. injection E as E. apply (N a); assumption.
      * apply (f_equal (@length _)) in E. rewrite L in E. discriminate.
    + inv Hm. assert (length l = length m) as K. { apply (f_equal (@length _)) in E. rewrite !L in E. congruence. }
      destruct l as [|c l], m as [|d m]; try discriminate K.
      * cbn [name_tokens] in E. injection E as E. apply app_inv_tail in E. congruence.
      * change (name_tokens (a :: c :: l)) with ((a ++ lit ",") :: name_tokens (c :: l)) in E.
        change (name_tokens (b :: d :: m)) with ((b ++ lit ",") :: name_tokens (d :: m)) in E.
        pose proof (f_equal (hd []) E) as E1. pose proof (f_equal (@tl _) E) as E2. cbn [hd tl] in E1, E2.
        apply app_inv_tail in E1. apply IH in E2; [congruence|assumption..].
Qed.

Lemma spaced_reads : forall x y r s, Forall token x -> Forall token y ->
  spaced x ++ lit "identity: " ++ r = spaced y ++ lit "identity: " ++ s -> x = y /\ r = s.
Proof.
  assert (forall u t v, token t -> lit "identity: " ++ u = t ++ 32 :: v -> False) as No.
  { intros u t v [A B] E. change (lit "identity: ") with (lit "identity:" ++ [32]) in E. rewrite <- app_assoc in E. cbn [app] in E.
    change (lit "identity: ") with (lit "identity:" ++ [32]) in E.
    change ([32] ++ u) with (32 :: u) in E.
    apply (span (fun c => c <> 32)) in E as [<- _]; [| |exact A|congruence..].
    - apply B. vm_compute. tauto.
    - apply Forall_forall. intros c I ->. vm_compute in I. intuition discriminate. }
  induction x as [|a x IH]; intros y r s Hx Hy E; destruct y as [|b y]; cbn [spaced] in E.
  - split; [reflexivity|]. apply (app_inv_head (lit "identity: ")) in E. exact E.
  - exfalso. inv Hy. rewrite <- app_assoc in E. apply No in E; assumption.
  - exfalso. inv Hx. rewrite <- app_assoc in E. symmetry in E. apply No in E; assumption.
  - inv Hx. inv Hy. rewrite <- !app_assoc in E. cbn [app] in E.
    apply (span (fun c => c <> 32)) in E as [<- E]; [|apply H1|apply H3|congruence..].
    apply (f_equal (@tl _)) in E. cbn [tl] in E. apply IH in E as [<- <-]; auto.
Qed.

Definition identity_next (r : str) : Prop := exists r', r = lit ", " ++ lit "identity" ++ lit ": " ++ r'.
Lemma reads_names : reads (Forall field_name) (fun l => compact (Items (map name_tree l))) identity_next.
Proof.
  intros a b r s Ha Hb (r' & ->) (s' & ->) E. cbn [compact] in E. rewrite !map_map in E. unfold name_tree in E.
  cbn [compact] in E. rewrite !map_id, <- !app_assoc in E. apply app_inv_head in E.
  assert (forall l u, comma_separated l ++ lit "]" ++ lit ", " ++ lit "identity" ++ lit ": " ++ u
    = spaced (name_tokens l) ++ lit "identity: " ++ u) as X.
  { intros l u. rewrite <- names_spaced, <- !app_assoc. reflexivity. }
  rewrite !X in E. apply spaced_reads in E as [E ->]; [|apply names_tokens; assumption..].
  apply tokens_inj in E; auto.
Qed.

(** ** Identities *)

Definition host_char (c : char) : Prop := letter_digit c \/ 60 <= c <= 62 \/ c = 45 \/ c = 46 \/ c = 95 \/ 128 <= c.
Definition host (d : str) : Prop := Forall host_char d.
Lemma reads_host : forall c, ~ host_char c -> reads host (fun d => d) (before c).
Proof. intros c N. apply reads_span with (q := host_char); auto. intros r (r' & ->). eauto. Qed.

Definition local_text (o : option str) : str := match o with Some l => l | None => [] end.
Definition local_ok (o : option str) : Prop := forall l, o = Some l -> dot_string l \/ quoted_string l.

Lemma qcontent_prefix : forall a, qcontent a -> forall b r s, qcontent b -> a ++ 34 :: r = b ++ 34 :: s -> a = b /\ r = s.
Proof.
  induction 1 as [|c a Hc H IH|c a Hc H IH]; intros b r s Hb E.
  - destruct Hb as [|d b Hd Hb|d b Hd Hb]; cbn [app] in E; injection E as E; subst; [auto|lia|discriminate].
  - destruct Hb as [|d b Hd Hb|d b Hd Hb]; cbn [app] in E.
    + injection E as E; subst; lia.
    + injection E as -> E. apply IH in E as [-> ->]; auto.
    + injection E as E; subst; lia.
  - destruct Hb as [|d b Hd Hb|d b Hd Hb]; cbn [app] in E.
    + discriminate.
    + injection E as E; subst; lia.
    + injection E as -> E. apply IH in E as [-> ->]; auto.
Qed.

Definition dot_class (c : char) : Prop := atext c \/ c = 46.
Lemma atext_not : forall c, atext c -> c <> 34 /\ c <> 64 /\ c <> 32 /\ c <> 41 /\ c <> 127 /\ 32 < c.
Proof.
  intros c [H|[H|H]]; [unfold letter_digit in H; lia| |lia]. vm_compute in H.
  repeat (destruct H as [<-|H]; [lia|]). destruct H.
Qed.
Lemma dotted_class : forall l, Forall (fun a => a <> [] /\ Forall atext a) l -> Forall dot_class (dotted l).
Proof.
  induction 1 as [|a l [_ H] _ IH]; [constructor|].
  assert (Forall dot_class a) by (eapply Forall_impl; [|exact H]; left; assumption).
  destruct l; [assumption|]. change (dotted (a :: l :: l0)) with (a ++ [46] ++ dotted (l :: l0)).
  apply Forall_app. split; [assumption|]. constructor; [right; reflexivity|assumption].
Qed.
Lemma dot_string_class : forall l, dot_string l -> l <> [] /\ Forall dot_class l.
Proof.
  intros l (atoms & N & H & ->). split; [|apply dotted_class; assumption].
  destruct atoms as [|a [|b atoms]]; [contradiction| |]; inv H; destruct H2 as [X _]; cbn [dotted].
  - assumption.
  - destruct a; [contradiction|discriminate].
Qed.

Lemma dot_not : forall c, dot_class c -> c <> 34 /\ c <> 64.
Proof. intros c [H| ->]; [apply atext_not in H; tauto|lia]. Qed.

Lemma reads_local : reads local_ok local_text (before 64).
Proof.
  assert (forall l m r s, dot_string l -> quoted_string m -> l ++ r = m ++ s -> False) as DQ.
  { intros l m r s D (q & -> & _) E. apply dot_string_class in D as [N D]. destruct D as [|c l Hc _]; [contradiction|].
    cbn [app] in E. injection E as -> _. apply dot_not in Hc. tauto. }
  assert (forall l r s, dot_string l -> l ++ r = 64 :: s -> False) as DN.
  { intros l r s D E. apply dot_string_class in D as [N D]. destruct D as [|c l Hc _]; [contradiction|].
    cbn [app] in E. injection E as -> _. apply dot_not in Hc. tauto. }
  assert (forall l r s, quoted_string l -> l ++ r = 64 :: s -> False) as QN.
  { intros l r s (q & -> & _) E. discriminate E. }
  intros a b r s Ha Hb (r' & ->) (s' & ->) E. destruct a as [a|], b as [b|]; cbn [local_text] in E.
  - specialize (Ha a eq_refl). specialize (Hb b eq_refl). destruct Ha as [Ha|Ha], Hb as [Hb|Hb].
    + apply (span dot_class) in E as [-> E]; auto; [apply dot_string_class; assumption..| |]; intros X; apply dot_not in X; tauto.
    + exfalso. eapply DQ; eauto.
    + exfalso. eapply DQ; [exact Hb|exact Ha|symmetry; exact E].
    + destruct Ha as (q & -> & Q), Hb as (q' & -> & Q'). cbn [app] in E. injection E as E. rewrite <- !app_assoc in E.
      apply qcontent_prefix in E as [-> E]; auto.
  - exfalso. destruct (Ha a eq_refl); eauto.
  - exfalso. symmetry in E. destruct (Hb b eq_refl); eauto.
  - auto.
Qed.

Definition identity_ok (i : Identity) : Prop := local_ok (id_local_part i) /\ host (id_domain i).
Lemma reads_identity : reads identity_ok (fun i => compact (identity_tree i)) (before 41).
Proof.
  intros [l d] [m e] r s [Hl Hd] [Hm He] Hr Hs E. cbn [identity_tree compact id_local_part id_domain] in *.
  rewrite <- !app_assoc in E. apply (reads_local l m) in E as [-> E]; auto; [|eexists; reflexivity..].
  apply app_inv_head in E. apply (reads_host 41) in E as [-> E]; auto.
  unfold host_char, letter_digit. lia.
Qed.

(** ** Structures *)

Fixpoint fields_end (fs : list (str * Tree)) : str :=
  match fs with
  | [] => lit " }"
  | (n, v) :: fs' => lit ", " ++ n ++ lit ": " ++ compact v ++ fields_end fs'
  end.
Lemma struct_text : forall name n v fs,
  compact (Struct name ((n, v) :: fs)) = name ++ lit " { " ++ n ++ lit ": " ++ compact v ++ fields_end fs.
Proof.
  intros name n v fs. cbn [compact is_nil map]. do 2 f_equal.
  revert n v. induction fs as [|[m w] fs IH]; intros n v.
  - cbn [map comma_separated fields_end]. rewrite <- !app_assoc. reflexivity.
  - change (comma_separated ((n ++ lit ": " ++ compact v) :: map (fun '(n, v) => n ++ lit ": " ++ compact v) ((m, w) :: fs)))
      with ((n ++ lit ": " ++ compact v) ++ lit ", " ++ comma_separated ((m ++ lit ": " ++ compact w) :: map (fun '(n, v) => n ++ lit ": " ++ compact v) fs)).
    cbn [fields_end]. rewrite <- IH, <- !app_assoc. reflexivity.
Qed.

Lemma reads_enum : forall A (f : A -> str) c, (forall a, forallb (fun d => negb (d =? c)) (f a) = true) ->
  (forall a b, f a = f b -> a = b) -> reads (fun _ => True) (fun a => compact (Text (f a))) (before c).
Proof.
  intros A f c H K. apply reads_span with (q := fun d => d <> c).
  - intros a _. apply Forall_forall. intros d I. specialize (H a). rewrite forallb_forall in H. apply H in I. lia.
  - auto.
  - intros r (r' & ->). exists c, r'. split; [reflexivity|]. tauto.
Qed.

Ltac enum := intros a b; destruct a, b; intros E; (reflexivity || (vm_compute in E; discriminate E)).

Lemma alg_name_inj : forall a b, alg_str a = alg_str b -> a = b.
Proof. enum. Qed.
Lemma canonicalization_name_inj : forall a b, canonicalization_str a = canonicalization_str b -> a = b.
Proof. intros [h c] [h' c']. destruct h, c, h', c'; intros E; (reflexivity || (vm_compute in E; discriminate E)). Qed.
Lemma key_type_name_inj : forall a b, key_type_str a = key_type_str b -> a = b.
Proof. enum. Qed.

Lemma before_fields : forall n v fs r, before 44 (fields_end ((n, v) :: fs) ++ r).
Proof. intros. eexists. reflexivity. Qed.
Lemma before_any : forall r, any r.
Proof. intros. exact I. Qed.
Lemma before_identity : forall v fs r, identity_next (fields_end ((lit "identity", v) :: fs) ++ r).
Proof. intros. cbn [fields_end]. rewrite <- !app_assoc. eexists. reflexivity. Qed.

(** the next field *)
Ltac side := solve [assumption | eexists; reflexivity | exact I | eassumption | apply before_fields | apply before_any | apply before_identity | intros; exact I].
Ltac value E R :=
  apply R in E; [|side..]; let X := fresh "X" in destruct E as [X E].
Lemma fields_cons : forall n v fs r, fields_end ((n, v) :: fs) ++ r = lit ", " ++ n ++ lit ": " ++ compact v ++ fields_end fs ++ r.
Proof. intros. cbn [fields_end]. rewrite <- !app_assoc. reflexivity. Qed.
Ltac label E r s := rewrite (fields_cons _ _ _ r), (fields_cons _ _ _ s) in E; do 3 apply app_inv_head in E.

Record sig_shown (s : DkimSig) : Prop := mkSigShown {
  ss_data : Forall is_byte (s_signature_data s);
  ss_hash : Forall is_byte (s_body_hash s);
  ss_domain : host (s_domain s);
  ss_headers : Forall field_name (s_signed_headers s);
  ss_identity : forall i, s_identity s = Some i -> identity_ok i;
  ss_selector : host (s_selector s);
  ss_copied : Forall field_ok (s_copied_headers s);
  ss_ext : Forall pair_ok (s_ext_tags s)
}.

Lemma reads_option_number : reads (fun o => forall n : N, o = Some n -> True) (fun o => compact (option_tree number_tree o)) any.
Proof. apply reads_option. apply reads_number. lia. Qed.
Lemma reads_option_str : reads (fun o => forall s, o = Some s -> Forall is_scalar s) (fun o => compact (option_tree (str_tree T) o)) any.
Proof. apply reads_option. eapply reads_weaken; [apply reads_str|]. intros; exact I. Qed.

Lemma reads_sig : reads sig_shown (fun s => compact (sig_tree T s)) any.
Proof.
  intros a b r s [A1 A2 A3 A4 A5 A6 A7 A8] [B1 B2 B3 B4 B5 B6 B7 B8] _ _ E. unfold sig_tree in E. rewrite !struct_text, <- !app_assoc in E.
  do 4 apply app_inv_head in E.
  value E (reads_enum _ alg_str 44 ltac:(intros []; reflexivity) alg_name_inj). label E r s.
  value E reads_base64. label E r s.
  value E reads_base64. label E r s.
  value E (reads_enum _ canonicalization_str 44 ltac:(intros [[] []]; reflexivity) canonicalization_name_inj). label E r s.
  value E (reads_host 44 ltac:(unfold host_char, letter_digit; lia)). label E r s.
  value E reads_names. label E r s.
  value E (reads_option _ _ _ reads_identity). label E r s.
  value E reads_option_number. label E r s.
  value E (reads_host 44 ltac:(unfold host_char, letter_digit; lia)). label E r s.
  value E reads_option_number. label E r s.
  value E reads_option_number. label E r s.
  value E reads_copied. label E r s.
  value E reads_tags. cbn [fields_end] in E. apply app_inv_head in E. split; [|exact E].
  destruct a, b; cbn in *; congruence.
Qed.

Record record_shown (k : KeyRecord) : Prop := mkRecordShown {
  rs_notes : forall t, k_notes k = Some t -> Forall is_scalar t;
  rs_data : Forall is_byte (k_key_data k);
  rs_ext : Forall pair_ok (k_ext_tags k)
}.

(** names that cannot be mistaken for the beginning of another one *)
Lemma reads_words : forall A (f : A -> str), (forall a b, begins (f a) (f b) = true -> a = b) ->
  reads (fun _ => True) (fun a => compact (Text (f a))) any.
Proof.
  intros A f K a b r s _ _ _ _ E. cbn [compact] in E.
  assert (forall x y : str, forall r s, x ++ r = y ++ s -> begins x y = true \/ begins y x = true) as X.
  { induction x as [|c x IH]; intros y u v F; [left; reflexivity|]. destruct y as [|d y]; [right; reflexivity|].
    cbn [app] in F. injection F as -> F. unfold begins. cbn [strip_prefix]. rewrite !N.eqb_refl. eapply IH. exact F. }
  assert (a = b) as -> by (destruct (X _ _ _ _ E) as [Y|Y]; [apply K in Y|apply K in Y; symmetry]; assumption).
  apply app_inv_head in E. auto.
Qed.

Lemma reads_words_list : forall A (f : A -> str), (forall a b, begins (f a) (f b) = true -> a = b) ->
  (forall a, match f a with [] => False | c :: _ => c <> 93 end) ->
  reads (fun _ => True) (fun l => compact (Items (map (fun a => Text (f a)) l))) any.
Proof.
  intros A f K H l m r s _ _ _ _ E.
  apply (reads_items A (fun _ => True) (fun a => Text (f a)) (reads_words A f K)) in E; [assumption| | | |exact I..].
  - intros a _. cbn [compact]. specialize (H a). destruct (f a) as [|c t]; [contradiction|]. eauto.
  - apply Forall_forall. intros; exact I.
  - apply Forall_forall. intros; exact I.
Qed.

Lemma reads_hash_alg_str : reads (fun _ => True) (fun l => compact (Items (map (fun a => Text (hash_alg_str a)) l))) any.
Proof.
  apply reads_words_list; [|intros []; discriminate].
  intros a b; destruct a, b; intros E; (reflexivity || (vm_compute in E; discriminate E)).
Qed.
Lemma reads_service_type_str : reads (fun _ => True) (fun l => compact (Items (map (fun a => Text (service_type_str a)) l))) any.
Proof.
  apply reads_words_list; [|intros []; discriminate].
  intros a b; destruct a, b; intros E; (reflexivity || (vm_compute in E; discriminate E)).
Qed.
Lemma reads_selector_flag_str : reads (fun _ => True) (fun l => compact (Items (map (fun a => Text (selector_flag_str a)) l))) any.
Proof.
  apply reads_words_list; [|intros []; discriminate].
  intros a b; destruct a, b; intros E; (reflexivity || (vm_compute in E; discriminate E)).
Qed.

Lemma reads_record : reads record_shown (fun k => compact (record_tree T k)) any.
Proof.
  intros a b r s [A1 A2 A3] [B1 B2 B3] _ _ E. unfold record_tree in E. rewrite !struct_text, <- !app_assoc in E.
  do 4 apply app_inv_head in E.
  value E reads_hash_alg_str. label E r s.
  value E (reads_enum _ key_type_str 44 ltac:(intros []; reflexivity) key_type_name_inj). label E r s.
  value E reads_option_str. label E r s.
  value E reads_base64. label E r s.
  value E reads_service_type_str. label E r s.
  value E reads_selector_flag_str. label E r s.
  value E reads_tags. cbn [fields_end] in E. apply app_inv_head in E. split; [|exact E].
  destruct a, b; cbn in *; congruence.
Qed.

(** ** Errors and results *)

Lemma kind_name_inj : forall a b, sig_kind_name a = sig_kind_name b -> a = b.
Proof. apply (texts_differ _ sig_kind_name all_kinds kind_index); [intros []; reflexivity|vm_compute; reflexivity]. Qed.

Record sig_error_shown (e : SigError) : Prop := mkSigErrorShown {
  es_algorithm : forall t, se_algorithm_str e = Some t -> Forall is_scalar t;
  es_data : forall t, se_signature_data_str e = Some t -> Forall is_scalar t;
  es_domain : forall t, se_domain_str e = Some t -> Forall is_scalar t;
  es_identity : forall t, se_identity_str e = Some t -> Forall is_scalar t;
  es_selector : forall t, se_selector_str e = Some t -> Forall is_scalar t
}.

Lemma reads_sig_error : reads sig_error_shown (fun e => compact (sig_error_tree T e)) any.
Proof.
  intros a b r s [A1 A2 A3 A4 A5] [B1 B2 B3 B4 B5] _ _ E. unfold sig_error_tree in E. rewrite !struct_text, <- !app_assoc in E.
  do 4 apply app_inv_head in E.
  value E (reads_enum _ sig_kind_name 44 ltac:(intros []; reflexivity) kind_name_inj). label E r s.
  value E reads_option_str. label E r s.
  value E reads_option_str. label E r s.
  value E reads_option_str. label E r s.
  value E reads_option_str. label E r s.
  value E reads_option_str. cbn [fields_end] in E. apply app_inv_head in E. split; [|exact E].
  destruct a, b; cbn in *; congruence.
Qed.

Definition word_char (c : char) : Prop := 48 <= c <= 57 \/ 65 <= c <= 90 \/ 97 <= c <= 122.
Definition word_charb (c : char) : bool := ((48 <=? c) && (c <=? 57)) || ((65 <=? c) && (c <=? 90)) || ((97 <=? c) && (c <=? 122)).
Lemma word_b : forall t, forallb word_charb t = true -> Forall word_char t.
Proof. intros t H. apply Forall_forall. intros c I. rewrite forallb_forall in H. apply H in I. unfold word_charb in I. unfold word_char. lia. Qed.

Definition error_word (e : VerificationError) : str :=
  match error_tree T e with
  | Text w => w
  | Tuple w _ => w
  | _ => []
  end.
Definition error_rest (e : VerificationError) : str :=
  match e with
  | DkimSignatureFormat e => lit "(" ++ compact (sig_error_tree T e) ++ lit ")"
  | KeyRecordFormat e => lit "(" ++ record_error_name e ++ lit ")"
  | VerificationFailure e => lit "(" ++ crypto_error_name e ++ lit ")"
  | Policy e => lit "(" ++ policy_error_name e ++ lit ")"
  | _ => []
  end.
Lemma error_parts : forall e, compact (error_tree T e) = error_word e ++ error_rest e.
Proof.
  assert (forall w t, w <> [] -> compact (Tuple w [t]) = w ++ lit "(" ++ compact t ++ lit ")") as X.
  { intros w t H. rewrite compact_tuple by assumption. rewrite <- app_assoc. reflexivity. }
  intros e. destruct e; unfold error_tree, error_word, error_rest; cbn beta iota;
    try (rewrite X by discriminate; reflexivity); rewrite app_nil_r; reflexivity.
Qed.
Lemma error_word_chars : forall e, Forall word_char (error_word e).
Proof. intros e. apply word_b. destruct e; reflexivity. Qed.

Lemma error_rest_next : forall e r, before 41 r -> exists c r', error_rest e ++ r = c :: r' /\ ~ word_char c.
Proof.
  intros e r (r' & ->). destruct e; eexists _, _; (split; [reflexivity|]); intros X; vm_compute in X; intuition congruence.
Qed.

Definition error_shown (e : VerificationError) : Prop := forall x, e = DkimSignatureFormat x -> sig_error_shown x.

Lemma record_name_inj : forall a b, record_error_name a = record_error_name b -> a = b.
Proof. enum. Qed.
Lemma crypto_name_inj : forall a b, crypto_error_name a = crypto_error_name b -> a = b.
Proof. enum. Qed.
Lemma policy_name_inj : forall a b, policy_error_name a = policy_error_name b -> a = b.
Proof. enum. Qed.

Lemma reads_error : reads error_shown (fun e => compact (error_tree T e)) (before 41).
Proof.
  intros a b r s Ha Hb Hr Hs E. rewrite !error_parts, <- !app_assoc in E.
  destruct (error_rest_next a r Hr) as (c & r' & Ra & Nc). destruct (error_rest_next b s Hs) as (d & s' & Rb & Nd).
  rewrite Ra, Rb in E. apply (span word_char) in E; [|apply error_word_chars..|assumption|assumption]. destruct E as [W E].
  rewrite <- Ra, <- Rb in E. clear Ra Rb Nc Nd.
  destruct a, b; try (vm_compute in W; discriminate W); cbn [error_rest] in E; try (split; [reflexivity|exact E]);
    rewrite <- !app_assoc in E; apply app_inv_head in E.
  - specialize (Ha _ eq_refl). specialize (Hb _ eq_refl). value E reads_sig_error. apply app_inv_head in E. subst. auto.
  - value E (reads_enum _ record_error_name 41 ltac:(intros []; reflexivity) record_name_inj). apply app_inv_head in E. subst. auto.
  - value E (reads_enum _ crypto_error_name 41 ltac:(intros []; reflexivity) crypto_name_inj). apply app_inv_head in E. subst. auto.
  - value E (reads_enum _ policy_error_name 41 ltac:(intros []; reflexivity) policy_name_inj). apply app_inv_head in E. subst. auto.
Qed.

Definition status_shown (x : VerificationStatus) : Prop := forall e, x = Failure e -> error_shown e.
Lemma reads_status : reads status_shown (fun x => compact (status_tree T x)) any.
Proof.
  intros a b r s Ha Hb _ _ E. destruct a as [|e], b as [|f]; unfold status_tree in E; rewrite ?compact_tuple, <- ?app_assoc in E by discriminate.
  - apply app_inv_head in E. auto.
  - discriminate E.
  - discriminate E.
  - do 2 apply app_inv_head in E. apply reads_error in E as [-> E]; [|apply Ha; reflexivity|apply Hb; reflexivity|eexists; reflexivity..].
    apply app_inv_head in E. auto.
Qed.

Record result_shown (r : VerificationResult) : Prop := mkResultShown {
  rs_status : status_shown (vr_status r);
  rs_signature : forall x, vr_signature r = Some x -> sig_shown x;
  rs_record : forall x, vr_key_record r = Some x -> record_shown x
}.

Lemma reads_result : reads result_shown (fun x => compact (result_tree T x)) any.
Proof.
  intros a b r s [A1 A2 A3] [B1 B2 B3] _ _ E. unfold result_tree in E. rewrite !struct_text, <- !app_assoc in E.
  do 4 apply app_inv_head in E.
  value E reads_status. label E r s.
  value E (reads_number 44 ltac:(lia)). label E r s.
  value E (reads_option _ _ _ (reads_weaken _ _ _ _ (before 41) reads_sig ltac:(intros; exact I))). label E r s.
  value E (reads_option _ _ _ (reads_weaken _ _ _ _ (before 41) reads_record ltac:(intros; exact I))).
  cbn [fields_end] in E. apply app_inv_head in E. split; [|exact E].
  apply Nnat.Nat2N.inj in X0. destruct a, b; cbn in *; congruence.
Qed.

(** ** One line *)

Lemma shown_one_line : forall t l, quoted l t -> one_line t.
Proof. intros. eapply quoted_one_line; eauto. Qed.
Lemma str_line : forall s, Forall is_scalar s -> one_line (str_debug T s).
Proof. intros s H. eapply quoted_one_line. apply str_quoted; assumption. Qed.
Lemma bytes_line : forall s, Forall is_byte s -> one_line (bytes_debug T s).
Proof. intros s H. eapply quoted_one_line. apply bytes_quoted; assumption. Qed.
Lemma name_line : forall n, field_name n -> one_line n.
Proof. intros n [_ H]. eapply Forall_impl; [|exact H]. unfold ftext. intros; lia. Qed.
Lemma number_line : forall n, one_line (dec_str n).
Proof. intros n. destruct (dec_str_spec n) as (_ & H & _). eapply Forall_impl; [|exact H]. cbn beta. intros; lia. Qed.
Lemma host_line : forall d, host d -> one_line d.
Proof. intros d H. eapply Forall_impl; [|exact H]. unfold host_char, letter_digit. intros; lia. Qed.
Lemma const_line : forall w, forallb (fun c => (32 <=? c) && negb (c =? 127)) w = true -> one_line w.
Proof. exact one_line_b. Qed.

(** all texts in a structure are on one line *)
Definition lined (t : Tree) : Prop := Forall one_line (texts t).
Lemma lined_text : forall s, one_line s -> lined (Text s).
Proof. intros. unfold lined. cbn [texts]. auto. Qed.
Lemma lined_tuple : forall w l, one_line w -> Forall lined l -> lined (Tuple w l).
Proof. intros w l H K. unfold lined. cbn [texts]. constructor; [assumption|]. apply Forall_flat_map. exact K. Qed.
Lemma lined_struct : forall w l, one_line w -> Forall (fun nv => one_line (fst nv) /\ lined (snd nv)) l -> lined (Struct w l).
Proof.
  intros w l H K. unfold lined. cbn [texts]. constructor; [assumption|]. apply Forall_flat_map. eapply Forall_impl; [|exact K].
  intros [n v] [A B]. constructor; assumption.
Qed.
Lemma lined_items : forall A (P : A -> Prop) (f : A -> Tree) l, (forall a, P a -> lined (f a)) -> Forall P l -> lined (Items (map f l)).
Proof.
  intros A P f l H K. unfold lined. cbn [texts]. apply Forall_flat_map. apply Forall_map. eapply Forall_impl; [|exact K]. exact H.
Qed.
Lemma lined_option : forall A (f : A -> Tree) o, (forall a, o = Some a -> lined (f a)) -> lined (option_tree f o).
Proof.
  intros A f [a|] H; unfold option_tree; [apply lined_tuple; [apply const_line; reflexivity|auto]|].
  apply lined_text. apply const_line. reflexivity.
Qed.
Lemma lined_base64 : forall bs, Forall is_byte bs -> lined (base64_tree bs).
Proof.
  intros bs H. unfold base64_tree. destruct (is_nil _); [apply lined_text; apply const_line; reflexivity|].
  apply lined_tuple; [apply const_line; reflexivity|]. repeat constructor. apply encode_class in H. eapply Forall_impl; [|exact H].
  unfold b64_class. intros; lia.
Qed.
Lemma lined_tags : forall l, Forall pair_ok l -> lined (tags_tree T l).
Proof.
  intros l H. apply lined_items with (P := pair_ok); [|assumption]. intros [n v] [A B].
  apply lined_tuple; [constructor|]. constructor; [|constructor; [|constructor]]; apply lined_text; apply str_line; assumption.
Qed.
Lemma lined_copied : forall l, Forall field_ok l -> lined (copied_tree T l).
Proof.
  intros l H. apply lined_items with (P := field_ok); [|assumption]. intros [n v] [A B].
  apply lined_tuple; [constructor|]. constructor; [|constructor; [|constructor]]; apply lined_text; [apply name_line|apply bytes_line]; assumption.
Qed.
Lemma lined_identity : forall i, identity_ok i -> lined (identity_tree i).
Proof.
  intros [l d] [L D]. apply lined_text. cbn [id_local_part id_domain] in *. rewrite !one_line_app.
  split; [|split; [apply const_line; reflexivity|apply host_line; assumption]].
  destruct l as [l|]; [|constructor]. destruct (L l eq_refl) as [H|(q & -> & H)].
  - apply dot_string_class in H as [_ H]. eapply Forall_impl; [|exact H]. intros c [X| ->]; [apply atext_not in X; lia|lia].
  - rewrite !one_line_app. split; [apply const_line; reflexivity|]. split; [|apply const_line; reflexivity].
    unfold one_line. clear - H. induction H as [|c q Hc _ IH|c q Hc _ IH].
    + apply Forall_nil.
    + apply Forall_cons; [lia|exact IH].
    + apply Forall_cons; [lia|]. apply Forall_cons; [lia|exact IH].
Qed.

Ltac constant := solve [apply const_line; reflexivity].
Ltac fields := repeat (apply Forall_nil || (apply Forall_cons; [split; [constant|cbn [snd]]|])).

Lemma lined_sig : forall s, sig_shown s -> lined (sig_tree T s).
Proof.
  intros s [A1 A2 A3 A4 A5 A6 A7 A8]. unfold sig_tree. apply lined_struct; [constant|]. fields.
  - apply lined_text. destruct (s_algorithm s); constant.
  - apply lined_base64; assumption.
  - apply lined_base64; assumption.
  - apply lined_text. destruct (s_canonicalization s) as [[] []]; constant.
  - apply lined_text, host_line; assumption.
  - apply lined_items with (P := field_name); [|assumption]. intros n H. apply lined_text, name_line; assumption.
  - apply lined_option. intros i E. apply lined_identity; auto.
  - apply lined_option. intros n _. apply lined_text, number_line.
  - apply lined_text, host_line; assumption.
  - apply lined_option. intros n _. apply lined_text, number_line.
  - apply lined_option. intros n _. apply lined_text, number_line.
  - apply lined_copied; assumption.
  - apply lined_tags; assumption.
Qed.

Lemma lined_record : forall k, record_shown k -> lined (record_tree T k).
Proof.
  intros k [A1 A2 A3]. unfold record_tree. apply lined_struct; [constant|]. fields.
  - apply lined_items with (P := fun _ => True); [|apply Forall_forall; intros; exact I]. intros [] _; apply lined_text; constant.
  - apply lined_text. destruct (k_key_type k); constant.
  - apply lined_option. intros t E. apply lined_text, str_line; auto.
  - apply lined_base64; assumption.
  - apply lined_items with (P := fun _ => True); [|apply Forall_forall; intros; exact I]. intros [] _; apply lined_text; constant.
  - apply lined_items with (P := fun _ => True); [|apply Forall_forall; intros; exact I]. intros [] _; apply lined_text; constant.
  - apply lined_tags; assumption.
Qed.

Lemma lined_error : forall e, error_shown e -> lined (error_tree T e).
Proof.
  intros e H. destruct e; try (apply lined_text; constant);
    try (apply lined_tuple; [constant|]; apply Forall_cons; [apply lined_text; destruct e; constant|apply Forall_nil]).
  apply lined_tuple; [constant|]. constructor; [|constructor]. destruct (H _ eq_refl) as [B1 B2 B3 B4 B5].
  unfold sig_error_tree. apply lined_struct; [constant|]. fields; try (apply lined_option; intros t E; apply lined_text, str_line; auto).
  apply lined_text. destruct (se_kind e); constant.
Qed.

Lemma lined_result : forall r, result_shown r -> lined (result_tree T r).
Proof.
  intros r [A1 A2 A3]. unfold result_tree. apply lined_struct; [constant|]. fields.
  - destruct (vr_status r) as [|e]; [apply lined_text; constant|]. apply lined_tuple; [constant|]. constructor; [|constructor].
    apply lined_error. apply A1. reflexivity.
  - apply lined_text, number_line.
  - apply lined_option. intros x E. apply lined_sig; auto.
  - apply lined_option. intros x E. apply lined_record; auto.
Qed.

Lemma lined_header : forall h, Forall field_ok h -> lined (header_tree T h).
Proof. intros h H. apply lined_tuple; [constant|]. constructor; [|constructor]. apply lined_copied. assumption. Qed.

End WithTables.
