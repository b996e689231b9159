(** Properties C10-C13: body hashing. *)

From Verif Require Import Base Utf8 Canon BodyHash SpecCanon SpecHash BodyHashProofs Sample.
From Coq Require Import String List Permutation.
Import ListNotations.
Open Scope N_scope.

(** C10, C11.  Register any keys in any order; let the hash map iterate in any
    order; feed any chunks.  Nothing panics, and each lookup gives what the
    specification says about the concatenated body. *)
Theorem C10_body_hash_result : forall hash forbid_truncation keys order chunks key,
  let builder := fold_left bhb_register keys (bhb_new forbid_truncation) in
  Permutation order (bhb_registrations builder) ->
  exists stances hasher results,
    hash_chunks (bhb_build builder order) chunks = Val (stances, hasher)
    /\ bh_finish hash hasher = Val results
    /\ (In key keys ->
        results_get results key = Some (expected_result hash forbid_truncation key (concat chunks)))
    /\ (~ In key keys -> results_get results key = None).
Proof. exact body_hash_result. Qed.
Print Assumptions C10_body_hash_result.

Example C10_example :
  let keys := [(None, Sha256, Relaxed); (Some 3, Sha256, Simple); (Some 9, Sha256, Simple);
               (Some 3, Sha256, Simple); (Some 5, Sha256, Relaxed)] in
  let body := [97; 32; 32; 13; 10; 98; 13; 10; 13; 10] in
  Permutation [(Some 9, Sha256, Simple); (None, Sha256, Relaxed); (Some 5, Sha256, Relaxed);
     (Some 3, Sha256, Simple)] (bhb_registrations (fold_left bhb_register keys (bhb_new true)))
  /\ map (fun k => expected_result toy_hash true k body) keys
     = [Ok (toy_hash Sha256 [97; 13; 10; 98; 13; 10], 6); Err InputTruncated;
        Err InsufficientInput; Err InputTruncated; Err InputTruncated]
  /\ expected_result toy_hash false (Some 3, Sha256, Simple) body = Ok (toy_hash Sha256 [97; 32; 32], 3).
Proof.
  split; [|split; reflexivity]. simpl.
  eapply Permutation_trans; [apply perm_swap|]. apply perm_skip.
  eapply Permutation_sym, Permutation_trans; [apply perm_swap|]. apply perm_skip. apply perm_swap.
Qed.

(** C11.  Consequence: chunking, other registrations and orders do not matter. *)
Theorem C11_result_function_of_body :
  forall hash forbid_truncation keys1 keys2 order1 order2 chunks1 chunks2 key
         stances1 stances2 hasher1 hasher2 results1 results2,
  let builder1 := fold_left bhb_register keys1 (bhb_new forbid_truncation) in
  let builder2 := fold_left bhb_register keys2 (bhb_new forbid_truncation) in
  Permutation order1 (bhb_registrations builder1) ->
  Permutation order2 (bhb_registrations builder2) ->
  In key keys1 -> In key keys2 ->
  concat chunks1 = concat chunks2 ->
  hash_chunks (bhb_build builder1 order1) chunks1 = Val (stances1, hasher1) ->
  hash_chunks (bhb_build builder2 order2) chunks2 = Val (stances2, hasher2) ->
  bh_finish hash hasher1 = Val results1 ->
  bh_finish hash hasher2 = Val results2 ->
  results_get results1 key = results_get results2 key /\ results_get results1 key <> None.
Proof.
  intros hash fot keys1 keys2 order1 order2 chunks1 chunks2 key st1 st2 h1 h2 r1 r2 b1 b2 P1 P2 I1 I2 E H1 H2 F1 F2.
  destruct (body_hash_result hash fot keys1 order1 chunks1 key P1) as (s1 & x1 & y1 & A1 & B1 & C1 & _).
  destruct (body_hash_result hash fot keys2 order2 chunks2 key P2) as (s2 & x2 & y2 & A2 & B2 & C2 & _).
  unfold b1 in H1. unfold b2 in H2. rewrite A1 in H1. rewrite A2 in H2.
  injection H1 as <- <-. injection H2 as <- <-.
  rewrite B1 in F1. rewrite B2 in F2. injection F1 as <-. injection F2 as <-.
  rewrite C1, C2, E by assumption. split; [reflexivity|discriminate].
Qed.
Print Assumptions C11_result_function_of_body.

Example C11_example : forall key,
  key = (Some 2, Sha256, Relaxed) ->
  let run keys chunks :=
    let b := fold_left bhb_register keys (bhb_new false) in
    let! (_, h) := hash_chunks (bhb_build b (bhb_registrations b)) chunks in
    let! rs := bh_finish toy_hash h in
    Val (results_get rs key) in
  run [(None, Sha256, Simple); key] [[97; 32]; [32; 98]; [13; 10]]
    = Val (Some (Ok (toy_hash Sha256 [97; 32], 2)))
  /\ run [key; (Some 1, Sha256, Relaxed)] [[97; 32; 32; 98; 13]; [10]]
    = Val (Some (Ok (toy_hash Sha256 [97; 32], 2))).
Proof. intros key ->. split; reflexivity. Qed.

(** C12 *)
Theorem C12_done_is_final : forall builder order chunks stances hasher more,
  hash_chunks (bhb_build builder order) chunks = Val (stances, hasher) ->
  In Done stances ->
  exists stances', hash_chunks hasher more = Val (stances', hasher) /\ Forall (eq Done) stances'.
Proof. exact done_is_final. Qed.
Print Assumptions C12_done_is_final.

(** Skipping chunks after Done gives the results due for the whole body. *)
Theorem C12_skipping_is_safe : forall hash builder order chunks more stances hasher,
  hash_chunks (bhb_build builder order) chunks = Val (stances, hasher) ->
  In Done stances ->
  bh_finish hash hasher
  = Val (map (fun k => (k, expected_result hash (bhb_fail_on_truncate builder) k
                             (concat (chunks ++ more)))) order).
Proof.
  intros hash b order chunks more sts bh H Hd.
  destruct (done_is_final b order chunks sts bh more H Hd) as (sts' & H1 & _).
  destruct (hash_body_results hash b order (chunks ++ more)) as (s & bh' & A & _ & B).
  rewrite hash_chunks_app, H in A. cbn [bind] in A. rewrite H1 in A. cbn [bind] in A.
  injection A as <- <-. exact B.
Qed.
Print Assumptions C12_skipping_is_safe.

(** Done is reported as soon as possible, and not before. *)
Theorem C12_done_iff_satisfied : forall builder order chunks chunk stances hasher,
  hash_chunks (bhb_build builder order) (chunks ++ [chunk]) = Val (stances, hasher) ->
  (last stances Interested = Done <->
   Forall (satisfied (bhb_fail_on_truncate builder) (concat (chunks ++ [chunk]))) order).
Proof. exact done_iff. Qed.
Print Assumptions C12_done_iff_satisfied.

Example C12_example :
  let b := fold_left bhb_register [(Some 2, Sha256, Simple); (Some 3, Sha256, Relaxed)] (bhb_new true) in
  (let! (st, _) := hash_chunks (bhb_build b (bhb_registrations b)) [[97; 98; 99]; [100]; [101]] in Val st)
  = Val [Interested; Done; Done].
Proof. reflexivity. Qed.

(** C13 *)
Theorem C13_counting_hasher : forall hash alg limit inputs,
  let all := concat inputs in
  exists statuses h,
    ch_updates (ch_new alg limit) inputs = Val (statuses, h)
    /\ length statuses = length inputs
    /\ (forall i st, nth_error statuses i = Some st ->
          (st = Truncated <->
           exists n b, limit = Some n /\ nth_error inputs i = Some b /\ b <> []
             /\ n < N.of_nat (length (concat (firstn (S i) inputs)))))
    /\ ch_finish hash h =
       match limit with
       | None => Some (hash alg all, N.of_nat (length all))
       | Some n => if N.of_nat (length all) <? n then None
                   else Some (hash alg (firstn (N.to_nat n) all), n)
       end.
Proof.
  intros hash alg limit inputs all.
  destruct (ch_updates_ok inputs (ch_new alg limit) alg limit [] (ch_new_ok alg limit))
    as (sts & h & H1 & H2 & H3 & H4).
  exists sts, h. split; [exact H1|]. split; [exact H3|]. split; [exact H4|].
  rewrite (ch_finish_ok hash h alg limit _ H2). reflexivity.
Qed.
Print Assumptions C13_counting_hasher.

Example C13_example :
  (let! (st, h) := ch_updates (ch_new Sha256 (Some 3)) [[1; 2]; []; [3]; []; [4]] in
   Val (st, ch_finish toy_hash h))
  = Val ([AllConsumed; AllConsumed; AllConsumed; AllConsumed; Truncated],
         Some (toy_hash Sha256 [1; 2; 3], 3)).
Proof. reflexivity. Qed.
