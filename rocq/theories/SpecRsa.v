(** Specification of RSA key pairs, and of the encoding of keys (RFC 8017, X.690,
    RFC 5208, RFC 7468). *)

From Coq Require Import String List NArith.
From Verif Require Import Base BodyHash Domain Signature KeyRecord Crypto Verify SpecText SpecVerify SpecCause.
Import ListNotations.
Open Scope N_scope.

Definition prime (p : N) : Prop := 1 < p /\ forall d, N.divide d p -> d = 1 \/ d = p.

Definition product (l : list N) : N := fold_right N.mul 1 l.

(** modulus, public exponent, private exponent; there may be more than two primes *)
Definition rsa_pair (n e d : N) : Prop :=
  exists ps, n = product ps /\ NoDup ps /\ 1 <= e * d
    /\ Forall (fun p => prime p /\ N.divide (p - 1) (e * d - 1)) ps.

(** the number written in these bytes, the most significant one first *)
Inductive big_endian : list byte -> N -> Prop :=
| be_nil : big_endian [] 0
| be_byte : forall bs n b, big_endian bs n -> is_byte b -> big_endian (bs ++ [b]) (256 * n + b).

(** ** DER *)

Inductive der_element (tag : byte) (content : list byte) : list byte -> Prop :=
| de_short : (length content < 128)%nat -> der_element tag content (tag :: N.of_nat (length content) :: content)
| de_long : forall l, (128 <= length content)%nat -> big_endian l (N.of_nat (length content)) -> hd 0 l <> 0 ->
    (length l < 127)%nat -> der_element tag content (tag :: (128 + N.of_nat (length l)) :: l ++ content).

Definition der_integer (n : N) (bs : list byte) : Prop :=
  exists c, big_endian c n /\ c <> [] /\ hd 0 c < 128 /\ (forall b c', c = 0 :: b :: c' -> 128 <= b)
    /\ der_element 2 c bs.

(** what the crate rsa accepts as public key *)
Definition rsa_accepted (n e : N) : Prop :=
  n < 2 ^ 4096 /\ N.Odd n /\ N.Odd e /\ 2 <= e < 2 ^ 33 /\ e < n.

(** RSAPublicKey *)
Definition rsa_public_der (n e : N) (bs : list byte) : Prop :=
  exists a b, der_integer n a /\ der_integer e b /\ der_element 48 (a ++ b) bs.

(** SubjectPublicKeyInfo with the algorithm rsaEncryption, 1.2.840.113549.1.1.1 *)
Definition rsa_info_der (n e : N) (bs : list byte) : Prop :=
  exists key algorithm bits, rsa_public_der n e key
    /\ der_element 48 [6; 9; 42; 134; 72; 134; 247; 13; 1; 1; 1; 5; 0] algorithm
    /\ der_element 3 (0 :: key) bits /\ der_element 48 (algorithm ++ bits) bs.

(** RSAPrivateKey: the version and these numbers, and more that only speeds up computing *)
Definition rsa_private_der (n e d : N) (bs : list byte) : Prop :=
  exists version parts more, Forall2 der_integer [version; n; e; d] parts /\ Forall is_byte more
    /\ der_element 48 (concat parts ++ more) bs.

(** PrivateKeyInfo *)
Definition rsa_private_info_der (n e d : N) (bs : list byte) : Prop :=
  exists version algorithm key octets, der_integer 0 version
    /\ der_element 48 [6; 9; 42; 134; 72; 134; 247; 13; 1; 1; 1; 5; 0] algorithm
    /\ rsa_private_der n e d key /\ der_element 4 key octets
    /\ der_element 48 (version ++ algorithm ++ octets) bs.

(** ** Signatures *)

(** DigestInfo, with the algorithm SHA-256 or SHA-1 *)
Definition digest_info (a : HashAlg) (digest bs : list byte) : Prop :=
  exists algorithm octets,
    der_element 48 (match a with
                    | Sha256 => [6; 9; 96; 134; 72; 1; 101; 3; 4; 2; 1; 5; 0]
                    | Sha1 => [6; 5; 43; 14; 3; 2; 26; 5; 0]
                    end) algorithm
    /\ der_element 4 digest octets /\ der_element 48 (algorithm ++ octets) bs.

(** RFC 8017, sections 8.2.2 and 9.2: the number of as many bytes as the modulus has, raised
    to the public exponent, is the padded digest *)
Definition rsa_valid (a : HashAlg) (n e : N) (digest sig : list byte) : Prop :=
  exists s padding info padded,
    big_endian sig s /\ s < n /\ 256 ^ N.of_nat (pred (length sig)) <= n < 256 ^ N.of_nat (length sig)
    /\ Forall (eq 255) padding /\ (8 <= length padding)%nat /\ digest_info a digest info
    /\ padded = [0; 1] ++ padding ++ [0] ++ info /\ length padded = length sig
    /\ big_endian padded (s ^ e mod n).

(** ** PEM *)

Definition pem_text (label : str) (bs : list byte) (t : str) : Prop :=
  exists ls, base64 bs (concat ls) /\ Forall (fun l => (0 < length l <= 64)%nat) ls
    /\ t = lit "-----BEGIN " ++ label ++ lit "-----" ++ [10] ++ flat_map (fun l => l ++ [10]) ls
           ++ lit "-----END " ++ label ++ lit "-----" ++ [10].

(** ** Publication *)

(** among the records consulted for these names is one with the public key *)
Definition rsa_published (E : Env) (zone : str -> IoResult (list (IoResult (list byte)))) (domain selector : str) (n e : N) : Prop :=
  exists d s txts txt k,
    idna_to_ascii (env_idna E) domain = Some d /\ idna_to_ascii (env_idna E) selector = Some s
    /\ zone (s ++ lit "._domainkey." ++ d ++ lit ".") = Ok txts /\ In txt (consulted txts)
    /\ record_reads_as E txt k /\ k_key_type k = Rsa /\ In Sha256 (k_hash_algorithms k)
    /\ (rsa_info_der n e (k_key_data k) \/ rsa_public_der n e (k_key_data k)).
