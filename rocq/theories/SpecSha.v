(** Specification of SHA-1, SHA-256 and SHA-512 on bits, after FIPS 180-4.  The standard
    has no digest for messages of 2^64 (SHA-512: 2^128) bits or more; here the length is
    taken modulo this number. *)

From Coq Require Import List NArith.
From Verif Require Import Base SpecRsa.
Import ListNotations.
Open Scope N_scope.

(** ** Words: the most significant bit first (2.2.2, 3.2) *)

Definition word := list bool.

Definition number (x : word) : N := fold_left (fun n b => 2 * n + (if b : bool then 1 else 0)) x 0.

(** the last [w] binary digits of a number *)
Fixpoint word_of (w : nat) (n : N) : word :=
  match w with
  | O => []
  | S w => N.testbit n (N.of_nat w) :: word_of w n
  end.

Definition zip {A B C} (f : A -> B -> C) (x : list A) (y : list B) : list C :=
  map (fun p => f (fst p) (snd p)) (combine x y).
Definition wxor : word -> word -> word := zip xorb.
Definition wand : word -> word -> word := zip andb.
Definition wnot : word -> word := map negb.
Definition wrotr (n : nat) (x : word) : word := skipn (length x - n) x ++ firstn (length x - n) x.
Definition wrotl (n : nat) (x : word) : word := skipn n x ++ firstn n x.
Definition wshr (n : nat) (x : word) : word := repeat false n ++ firstn (length x - n) x.
(** addition modulo 2^w *)
Definition sum (w : nat) (l : list word) : word := word_of w (fold_right (fun x n => number x + n) 0 l).

(** 4.1 *)
Definition ch (x y z : word) : word := wxor (wand x y) (wand (wnot x) z).
Definition maj (x y z : word) : word := wxor (wxor (wand x y) (wand x z)) (wand y z).
Definition parity (x y z : word) : word := wxor (wxor x y) z.

(** ** Constants (4.2, 5.3) *)

(** [t] primes are smaller than the prime [p] *)
Definition nth_prime (t : nat) (p : N) : Prop :=
  prime p /\ exists ps, NoDup ps /\ length ps = t /\ forall q, In q ps <-> prime q /\ q < p.

(** the first [w] bits of the fractional part of the [r]-th root of [p] *)
Definition root_bits (r : N) (w : nat) (p : N) (x : word) : Prop :=
  length x = w
  /\ exists i, let y := i * 2 ^ N.of_nat w + number x in
       y ^ r <= p * 2 ^ (r * N.of_nat w) < (y + 1) ^ r.

(** ** Preprocessing (5.1, 5.2) *)

(** a one bit, as few zero bits as possible, and the length; then blocks of sixteen words *)
Definition padded (w : nat) (msg p : word) : Prop :=
  exists k, p = msg ++ [true] ++ repeat false k ++ word_of (2 * w) (N.of_nat (length msg))
    /\ ((length msg + 1 + k) mod (16 * w) = 14 * w)%nat
    /\ forall j, ((length msg + 1 + j) mod (16 * w) = 14 * w)%nat -> (k <= j)%nat.

Definition parsed (w : nat) (p : word) (blocks : list (list word)) : Prop :=
  p = concat (concat blocks)
  /\ Forall (fun b => length b = 16%nat /\ Forall (fun x => length x = w) b) blocks.

(** ** Hash computation (6.1.2, 6.2.2, 6.4.2) *)

Section Computation.
Variable w rounds : nat.
(** the later words of the schedule, from those before *)
Variable next_word : (nat -> word) -> nat -> word.
(** a step with the word of the schedule for it *)
Variable step : nat -> word -> list word -> list word.

Definition schedule (block : list word) (ws : nat -> word) : Prop :=
  (forall t, (t < 16)%nat -> nth_error block t = Some (ws t))
  /\ (forall t, (16 <= t < rounds)%nat -> ws t = next_word ws t).

Definition block_hash (block h h' : list word) : Prop :=
  exists ws vs, schedule block ws /\ vs O = h
    /\ (forall t, (t < rounds)%nat -> vs (S t) = step t (ws t) (vs t))
    /\ h' = zip (fun x y => sum w [x; y]) (vs rounds) h.

Inductive blocks_hash : list (list word) -> list word -> list word -> Prop :=
| bh_none : forall h, blocks_hash [] h h
| bh_block : forall b bs h h' h'', block_hash b h h' -> blocks_hash bs h' h'' -> blocks_hash (b :: bs) h h''.

Definition digest (initial : list word) (msg d : word) : Prop :=
  exists p bs h, padded w msg p /\ parsed w p bs /\ blocks_hash bs initial h /\ d = concat h.
End Computation.

(** ** SHA-256 and SHA-512 *)

Section Sha2.
Variable w rounds : nat.
Variables small0 small1 big0 big1 : word -> word.

Definition sha2_next (ws : nat -> word) (t : nat) : word :=
  sum w [small1 (ws (t - 2)%nat); ws (t - 7)%nat; small0 (ws (t - 15)%nat); ws (t - 16)%nat].

Definition sha2_step (ks : nat -> word) (t : nat) (x : word) (v : list word) : list word :=
  match v with
  | [a; b; c; d; e; f; g; h] =>
      let t1 := sum w [h; big1 e; ch e f g; ks t; x] in
      let t2 := sum w [big0 a; maj a b c] in
      [sum w [t1; t2]; a; b; c; sum w [d; t1]; e; f; g]
  | _ => []
  end.

Definition sha2_digest (msg d : word) : Prop :=
  exists ks initial,
    (forall t p, (t < rounds)%nat -> nth_prime t p -> root_bits 3 w p (ks t))
    /\ length initial = 8%nat
    /\ (forall t p, (t < 8)%nat -> nth_prime t p -> root_bits 2 w p (nth t initial []))
    /\ digest w rounds sha2_next (sha2_step ks) initial msg d.
End Sha2.

Definition sha256_digest : word -> word -> Prop :=
  sha2_digest 32 64
    (fun x => wxor (wxor (wrotr 7 x) (wrotr 18 x)) (wshr 3 x))
    (fun x => wxor (wxor (wrotr 17 x) (wrotr 19 x)) (wshr 10 x))
    (fun x => wxor (wxor (wrotr 2 x) (wrotr 13 x)) (wrotr 22 x))
    (fun x => wxor (wxor (wrotr 6 x) (wrotr 11 x)) (wrotr 25 x)).

Definition sha512_digest : word -> word -> Prop :=
  sha2_digest 64 80
    (fun x => wxor (wxor (wrotr 1 x) (wrotr 8 x)) (wshr 7 x))
    (fun x => wxor (wxor (wrotr 19 x) (wrotr 61 x)) (wshr 6 x))
    (fun x => wxor (wxor (wrotr 28 x) (wrotr 34 x)) (wrotr 39 x))
    (fun x => wxor (wxor (wrotr 14 x) (wrotr 18 x)) (wrotr 41 x)).

(** ** SHA-1 *)

Definition sha1_constant (t : nat) : N :=
  if Nat.ltb t 20 then 0x5a827999
  else if Nat.ltb t 40 then 0x6ed9eba1
  else if Nat.ltb t 60 then 0x8f1bbcdc
  else 0xca62c1d6.

Definition sha1_function (t : nat) : word -> word -> word -> word :=
  if Nat.ltb t 20 then ch
  else if Nat.ltb t 40 then parity
  else if Nat.ltb t 60 then maj
  else parity.

Definition sha1_next (ws : nat -> word) (t : nat) : word :=
  wrotl 1 (wxor (wxor (wxor (ws (t - 3)%nat) (ws (t - 8)%nat)) (ws (t - 14)%nat)) (ws (t - 16)%nat)).

Definition sha1_step (t : nat) (x : word) (v : list word) : list word :=
  match v with
  | [a; b; c; d; e] =>
      [sum 32 [wrotl 5 a; sha1_function t b c d; e; word_of 32 (sha1_constant t); x]; a; wrotl 30 b; c; d]
  | _ => []
  end.

Definition sha1_digest : word -> word -> Prop :=
  digest 32 80 sha1_next sha1_step
    (map (word_of 32) [0x67452301; 0xefcdab89; 0x98badcfe; 0x10325476; 0xc3d2e1f0]).

(** ** Bytes *)

Definition bits_of (bs : list byte) : word := flat_map (word_of 8) bs.

(** [f] is the function that the relation between bits describes *)
Definition computes (d : word -> word -> Prop) (f : list byte -> list byte) : Prop :=
  forall msg, Forall (fun b => b < 256) msg -> Forall (fun b => b < 256) (f msg) /\ d (bits_of msg) (bits_of (f msg)).
