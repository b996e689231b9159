(** Lemmas on lookups with the Hickory resolver. *)

From Coq Require Import List Permutation.
From Verif Require Import Base Canon BodyHash Header Domain Signature KeyRecord Crypto Verify Hickory SpecHickory
  SpecCanon SpecHash SpecHeader SpecSig SpecRecord SpecSign SpecVerify VerifyProofs VerifyKeys VerifyRun VerifyFacts Lib.

Section WithEnv.
Variable E : Env.

(** the answer used is one that the resolver gave *)
Lemma evaluation_answer : forall w headers config chunks rs i name value r s sig p, world_ok w -> header_fields headers ->
  verify_message E w headers config chunks = Val (Some rs) -> result_for config headers rs i name value r ->
  in_progress E headers config (w_clock w i) value s sig -> lookup_pair E sig p ->
  exists answer n, evaluation E w headers config chunks answer rs /\ answer p = rs_answer (w_resolver w) n (key_name p).
Proof.
  intros w headers config chunks rs i name value r s sig p W H M R P L.
  destruct (evaluation_exists E w headers config chunks W H) as (answer & rs' & Ev).
  { destruct R as (k & R & _). intros X. rewrite X in R. destruct k; discriminate. }
  assert (rs' = rs) as ->. { destruct Ev as (_ & _ & M' & _). congruence. }
  pose proof Ev as (_ & _ & _ & v & qs & t & V & A).
  destruct (lookups_spec E w headers config _ _ _ W H V) as (qs' & L1 & _ & _ & Q & _). apply lookup_log_inj in L1. subst qs'.
  assert (In p qs) as Hp.
  { apply Q. exists i, name, value, s, sig. split; [|auto]. destruct R as (k & R & _). eapply nth_error_In. exact R. }
  apply In_nth_error in Hp as (n & Hn). exists answer, n. split; [exact Ev|]. exact (A n p Hn).
Qed.

Lemma hickory_no_key : forall w h headers config chunks rs i name value r s sig p,
  w_resolver w = hickory_resolver h -> world_ok w -> header_fields headers ->
  verify_message E w headers config chunks = Val (Some rs) -> result_for config headers rs i name value r ->
  in_progress E headers config (w_clock w i) value s sig -> lookup_pair E sig p ->
  (hk_from_ascii h (key_name p) = None -> vr_status r = Failure InvalidKeyDomain)
  /\ forall n, hk_from_ascii h (key_name p) = Some n ->
     ((forall j, exists e, hk_txt_lookup h j n = Err e /\ hk_no_records_found h e = true) -> vr_status r = Failure NoKeyFound)
     /\ ((forall j, hk_txt_lookup h j n = Ok []) -> vr_status r = Failure NoKeyFound)
     /\ (forall k x, (forall j, exists e, hk_txt_lookup h j n = Err e /\ hk_no_records_found h e = false /\ hk_io_kind h e = k) ->
           lookup_error k x -> vr_status r = Failure x).
Proof.
  intros w h headers config chunks rs i name value r s sig p Hw W H M R P L.
  destruct (evaluation_answer w headers config chunks rs i name value r s sig p W H M R P L) as (answer & j & Ev & A).
  destruct (evaluation_verdict _ _ _ _ _ _ _ _ _ _ _ Ev R) as (V & _). rewrite Hw in A. cbn in A. unfold hickory_lookup_txt in A.
  assert (forall k e, answer p = Err k -> lookup_error k e -> vr_status r = Failure e) as X.
  { intros k e K Le. rewrite (verdict_det _ _ _ _ _ _ _ _ _ _ _ V (vd_lookup E answer headers config _ _ i name value s sig p k e P L K Le)). reflexivity. }
  split; [intros N; rewrite N in A; eapply X; [exact A|constructor]|].
  intros n N. rewrite N in A. split; [|split].
  - intros F. destruct (F j) as (e & F1 & F2). rewrite F1, F2 in A. eapply X; [exact A|constructor].
  - intros F. rewrite F in A. cbn in A. rewrite (verdict_det _ _ _ _ _ _ _ _ _ _ _ V (vd_no_key E answer headers config _ _ i name value s sig p P L A)). reflexivity.
  - intros k x F Le. destruct (F j) as (e & F1 & F2 & F3). rewrite F1, F2, F3 in A. eapply X; eassumption.
Qed.

Lemma consulted_map : forall A B (f : A -> B) l, consulted (map f l) = map f (consulted l).
Proof.
  intros A B f [|a [|b [|c l]]]; try reflexivity. cbn [map consulted]. do 3 f_equal. revert c. 
  assert (forall d l, last (map f l) (f d) = f (last l d)) as X.
  { intros d l'. induction l' as [|x l' IH]; [reflexivity|]. destruct l' as [|y l']; [reflexivity|]. exact IH. }
  intros c. exact (X c (c :: l)).
Qed.

Lemma map_split : forall A B (f : A -> B) l before x after, map f l = before ++ x :: after ->
  exists b y a, l = b ++ y :: a /\ before = map f b /\ x = f y /\ after = map f a.
Proof.
  intros A B f l before. revert l. induction before as [|z before IH]; intros [|y l] x after H; try discriminate.
  - injection H as H1 H2. exists [], y, l. auto.
  - injection H as H1 H2. destruct (IH _ _ _ H2) as (b & y' & a & -> & -> & -> & ->). exists (y :: b), y', a. subst. auto.
Qed.

Lemma hickory_records : forall w h headers config chunks rs i name value r s sig p n txts,
  w_resolver w = hickory_resolver h -> world_ok w -> header_fields headers ->
  verify_message E w headers config chunks = Val (Some rs) -> result_for config headers rs i name value r ->
  in_progress E headers config (w_clock w i) value s sig -> lookup_pair E sig p ->
  hk_from_ascii h (key_name p) = Some n -> (forall j, hk_txt_lookup h j n = Ok txts) -> txts <> [] ->
  let accepts strings k := record_accepts E headers config sig name s (Ok (concat strings)) k in
  vr_signature r = Some sig /\
  ((exists before strings after k, consulted txts = before ++ strings :: after
      /\ Forall (fun x => forall k', ~ accepts x k') before /\ accepts strings k
      /\ vr_status r = body_status E config sig (concat chunks) /\ vr_key_record r = Some k)
   \/ (exists before strings e, consulted txts = before ++ [strings]
      /\ Forall (fun x => forall k', ~ accepts x k') (consulted txts)
      /\ record_outcome E headers config sig name s (Ok (concat strings)) (vr_key_record r) (Some e) /\ vr_status r = Failure e)).
Proof.
  intros w h headers config chunks rs i name value r s sig p n txts Hw W H M R P L N T Ne accepts.
  destruct (evaluation_answer w headers config chunks rs i name value r s sig p W H M R P L) as (answer & j & Ev & A).
  destruct (evaluation_verdict _ _ _ _ _ _ _ _ _ _ _ Ev R) as (V & Hn & Hh & _). rewrite Hw in A. cbn in A. unfold hickory_lookup_txt in A. rewrite N, T in A.
  destruct (verdict_records E answer headers config _ _ i name value r s sig p _ Hh Hn V P L A) as (S & [X|X]).
  { destruct txts; [congruence|discriminate]. }
  - split; [exact S|]. left. destruct X as (before & txt & after & k & X1 & X2 & X3 & X4 & X5). rewrite consulted_map in X1.
    apply map_split in X1 as (b & y & a & Y1 & -> & -> & ->). exists b, y, a, k. split; [exact Y1|]. split; [|auto].
    rewrite Forall_map in X2. exact X2.
  - split; [exact S|]. right. destruct X as (before & txt & e & X1 & X2 & X3 & X4). rewrite consulted_map in X1, X2.
    apply map_split in X1 as (b & y & a & Y1 & -> & -> & Y2). destruct a; [|discriminate]. exists b, y, e. split; [exact Y1|]. split; [|auto].
    rewrite Forall_map in X2. exact X2.
Qed.

Lemma same_dns_answers : forall h h' j j' name, same_dns h h' -> hickory_lookup_txt h j name = hickory_lookup_txt h' j' name.
Proof.
  intros h h' j j' name S. specialize (S j j' name). unfold hickory_lookup_txt.
  destruct (hk_from_ascii h name) as [n|], (hk_from_ascii h' name) as [n'|]; try contradiction; [|reflexivity].
  destruct (hk_txt_lookup h j n) as [t|e], (hk_txt_lookup h' j' n') as [t'|e']; try contradiction.
  - f_equal. rewrite <- (map_map (@concat _) (fun x => Ok x)), S, map_map. reflexivity.
  - destruct S as [-> ->]. reflexivity.
Qed.

Lemma hickory_split : forall w w' h h' headers config chunks, w_resolver w = hickory_resolver h -> w_resolver w' = hickory_resolver h' ->
  world_ok w -> world_ok w' -> header_fields headers -> (forall i, w_clock w i = w_clock w' i) -> same_dns h h' ->
  verify_message E w headers config chunks = verify_message E w' headers config chunks.
Proof.
  intros w w' h h' headers config chunks Hw Hw' W W' H C S.
  apply (order_independent E w w' headers config chunks chunks (hickory_lookup_txt h' 0)); auto.
  - intros n name. rewrite Hw. cbn. apply same_dns_answers. exact S.
  - intros n name. rewrite Hw'. cbn. rewrite <- (same_dns_answers h h' 0 n name S). apply same_dns_answers. exact S.
Qed.
Lemma log_time : forall h qs n t, let log := lookup_log (hickory_resolver h) n t qs in
  lookups_end (hickory_resolver h) n t qs
  = fold_left (fun t x => t + x) (map (fun '(n, (_, name, _)) => hk_latency h n name) (combine (seq n (length log)) log)) t.
Proof.
  intros h qs. induction qs as [|q qs IH]; intros n t; [reflexivity|]. cbn [lookup_log lookups_end length seq combine map fold_left].
  rewrite IH. reflexivity.
Qed.

Lemma hickory_time : forall w h headers config v log t, w_resolver w = hickory_resolver h -> world_ok w -> header_fields headers ->
  verify_header E w headers config = Val (Some (v, log, t)) ->
  t = fold_left (fun t x => t + x) (map (fun '(n, (_, name, _)) => hk_latency h n name) (combine (seq 0 (length log)) log)) 0.
Proof.
  intros w h headers config v log t R W H V. destruct (lookups_spec E w headers config v log t W H V) as (qs & L & T & _).
  rewrite R in L, T. subst log t. apply log_time.
Qed.

End WithEnv.
