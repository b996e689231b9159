(** Specification of Ed25519 (RFC 8032, sections 5.1 to 5.1.7) without computing, for a
    hash function [sha512]; and of the encoding of keys (RFC 8410). *)

From Coq Require Import String List NArith.
From Verif Require Import Base BodyHash Domain Signature KeyRecord Crypto Verify SpecText SpecVerify SpecCause SpecRsa.
Import ListNotations.
Open Scope N_scope.

(** ** The curve: [y^2 - x^2 = 1 - (121665 / 121666) x^2 y^2], modulo 2^255 - 19 *)

Definition modulus : N := 2 ^ 255 - 19.
Definition equal (a b : N) : Prop := a mod modulus = b mod modulus.

Definition on_curve (a : N * N) : Prop :=
  let '(x, y) := a in
  x < modulus /\ y < modulus
  /\ equal (121666 * (y * y) + 121665 * (x * x * (y * y))) (121666 + 121666 * (x * x)).

Definition ed_sum (a b c : N * N) : Prop :=
  let '(x1, y1) := a in
  let '(x2, y2) := b in
  let '(x3, y3) := c in
  on_curve c
  /\ equal (121666 * x3) (121666 * (x1 * y2 + x2 * y1) + 121665 * (x1 * x2 * (y1 * y2) * x3))
  /\ equal (y3 * (121666 + 121665 * (x1 * x2 * (y1 * y2)))) (121666 * (y1 * y2 + x1 * x2)).

Inductive ed_multiple (a : N * N) : N -> N * N -> Prop :=
| em_zero : ed_multiple a 0 (0, 1)
| em_more : forall n b c, ed_multiple a n b -> ed_sum b a c -> ed_multiple a (n + 1) c.

Definition ed_base (a : N * N) : Prop := on_curve a /\ equal (5 * snd a) 4 /\ fst a mod 2 = 0.
Definition ed_order : N := 2 ^ 252 + 27742317777372353535851937790883648493.

Definition little_endian (bs : list byte) (n : N) : Prop := big_endian (rev bs) n.

(** a point as 32 bytes *)
Definition ed_encoding (a : N * N) (bs : list byte) : Prop :=
  on_curve a /\ length bs = 32%nat /\ little_endian bs (snd a + 2 ^ 255 * (fst a mod 2)).

(** what is taken for a public key: also y with the modulus added, and either sign of
    x = 0 *)
Definition ed_reading (a : N * N) (bs : list byte) : Prop :=
  on_curve a /\ length bs = 32%nat
  /\ exists y sign, little_endian bs (y + 2 ^ 255 * sign) /\ y < 2 ^ 255 /\ equal y (snd a)
       /\ sign < 2 /\ (sign = fst a mod 2 \/ fst a = 0).

(** the byte strings that are no encodings of points, but taken for public keys *)
Definition ed_irregular (bs : list byte) : Prop :=
  length bs = 32%nat
  /\ exists y sign, little_endian bs (y + 2 ^ 255 * sign)
       /\ (In y (map (N.add modulus) [0; 1; 3; 4; 5; 6; 9; 10; 14; 15; 16; 18]) /\ sign < 2
           \/ In y [1; modulus - 1] /\ sign = 1).

Section Hash.
Variable sha512 : list byte -> list byte.

(** the scalar and the prefix of a private key *)
Definition ed_expanded (key : list byte) (s : N) (prefix : list byte) : Prop :=
  exists low h, sha512 key = low ++ prefix /\ length low = 32%nat /\ little_endian low h
    /\ s = 2 ^ 254 + 8 * (h / 8 mod 2 ^ 251).

(** public keys *)
Definition ed_public_key (key public : list byte) : Prop :=
  exists s prefix b a, ed_expanded key s prefix /\ ed_base b /\ ed_multiple b s a /\ ed_encoding a public.

(** signatures *)
Definition ed_signature (key msg sig : list byte) : Prop :=
  exists s prefix public r hr rr k low,
    ed_expanded key s prefix /\ ed_public_key key public
    /\ little_endian (sha512 (prefix ++ msg)) r
    /\ (exists b, ed_base b /\ ed_multiple b r rr) /\ ed_encoding rr hr
    /\ little_endian (sha512 (hr ++ public ++ msg)) k
    /\ length low = 32%nat /\ little_endian low ((r + k * s) mod ed_order)
    /\ sig = hr ++ low.

(** validity *)
Definition ed_valid (public msg sig : list byte) : Prop :=
  exists hr low rr a b s k x y,
    sig = hr ++ low /\ ed_encoding rr hr /\ ed_reading a public /\ ed_base b
    /\ length low = 32%nat /\ little_endian low s /\ s < ed_order
    /\ little_endian (sha512 (hr ++ public ++ msg)) k
    /\ ed_multiple b s x /\ ed_multiple a (k mod ed_order) y /\ ed_sum rr y x.
End Hash.

(** ** Encodings of keys *)

(** SubjectPublicKeyInfo with the algorithm id-Ed25519, 1.3.101.112 *)
Definition ed_info_der (public bs : list byte) : Prop :=
  exists algorithm bits, der_element 48 [6; 3; 43; 101; 112] algorithm
    /\ der_element 3 (0 :: public) bits /\ der_element 48 (algorithm ++ bits) bs.

(** PrivateKeyInfo with CurvePrivateKey *)
Definition ed_private_info_der (key bs : list byte) : Prop :=
  exists version algorithm inner octets, der_integer 0 version
    /\ der_element 48 [6; 3; 43; 101; 112] algorithm
    /\ der_element 4 key inner /\ der_element 4 inner octets
    /\ der_element 48 (version ++ algorithm ++ octets) bs.

(** among the records consulted for these names is one with the public key *)
Definition ed_published (E : Env) (zone : str -> IoResult (list (IoResult (list byte)))) (domain selector : str) (public : list byte) : Prop :=
  exists d s txts txt k,
    idna_to_ascii (env_idna E) domain = Some d /\ idna_to_ascii (env_idna E) selector = Some s
    /\ zone (s ++ lit "._domainkey." ++ d ++ lit ".") = Ok txts /\ In txt (consulted txts)
    /\ record_reads_as E txt k /\ k_key_type k = Ed25519 /\ In Sha256 (k_hash_algorithms k)
    /\ (k_key_data k = public \/ ed_info_der public (k_key_data k)).
