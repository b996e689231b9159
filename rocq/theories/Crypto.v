(** The external environment of viadkim: cryptographic primitives, IDNA, and
    build configuration, as parameters; and the thin wrappers of src/crypto/.
    Definitions only. *)

From Verif Require Import Base BodyHash Domain Signature.

(** External crates sha1, sha2, rsa, ed25519-dalek: key types and operations.
    The real operations are deterministic for the algorithms used here. *)
Record Crypto := mkCrypto {
  hash_fn : HashAlg -> list byte -> list byte;
  RsaPriv : Type;
  EdPriv : Type;
  RsaPub : Type;
  EdPub : Type;
  rsa_sig_len : RsaPriv -> nat;                                (* [PublicKeyParts::size] *)
  rsa_sign : HashAlg -> RsaPriv -> list byte -> option (list byte);
  ed_sign : EdPriv -> list byte -> list byte;
  rsa_from_spki : list byte -> option RsaPub;                  (* [from_public_key_der] *)
  rsa_from_pkcs1 : list byte -> option RsaPub;                 (* [from_pkcs1_der] *)
  ed_from_raw : list byte -> option EdPub;                     (* [VerifyingKey::try_from] *)
  ed_from_spki : list byte -> option EdPub;                    (* [from_public_key_der] *)
  rsa_size : RsaPub -> N;                                      (* modulus size in bytes *)
  rsa_verify : RsaPub -> HashAlg -> list byte -> list byte -> bool;
  ed_verify : EdPub -> list byte -> list byte -> bool          (* includes [Signature::from_slice] *)
}.

(** The environment: feature [pre-rfc8301], [usize::MAX], and external crates. *)
Record Env := mkEnv {
  env_pre : bool;
  env_usize_max : N;
  env_idna : Idna;
  env_crypto : Crypto
}.

Section WithCrypto.
Variable C : Crypto.

(** src/crypto/mod.rs:195-200 [SigningKey] *)
Inductive SigningKey := SkRsa (k : RsaPriv C) | SkEd25519 (k : EdPriv C).

(** src/crypto/mod.rs:204-209 [key_type] *)
Definition sk_key_type (k : SigningKey) : KeyType :=
  match k with SkRsa _ => Rsa | SkEd25519 _ => Ed25519 end.

(** src/crypto/mod.rs:212-220 [signature_length]; [SIGNATURE_LENGTH] is 64 *)
Definition sk_signature_length (k : SigningKey) : nat :=
  match k with SkRsa k => rsa_sig_len C k | SkEd25519 _ => 64 end.

(** src/crypto/mod.rs:254-259 [VerifyingKey] *)
Inductive VerifyingKey := VkRsa (k : RsaPub C) | VkEd25519 (k : EdPub C).

(** src/crypto/rsa.rs:81-83 [get_public_key_size], src/crypto/mod.rs:265-270 [key_size] *)
Definition vk_key_size (k : VerifyingKey) : option N :=
  match k with
  | VkRsa k => Some (rsa_size C k * 8)
  | VkEd25519 _ => None
  end.

(** src/crypto/rsa.rs:79 [MIN_KEY_BITS] *)
Definition min_key_bits (pre : bool) : N := if pre then 512 else 1024.

(** src/crypto/mod.rs:273-281 [validate_min_key_size]; [false] is
    [InsufficientKeySize] *)
Definition validate_min_key_size (pre : bool) (k : VerifyingKey) : bool :=
  match k, vk_key_size k with
  | VkRsa _, Some n => negb (n <? min_key_bits pre)
  | _, _ => true
  end.

(** src/crypto/rsa.rs:62-77 [read_rsa_public_key] *)
Definition read_rsa_public_key (data : list byte) : option (RsaPub C) :=
  match rsa_from_spki C data with
  | Some k => Some k
  | None => rsa_from_pkcs1 C data
  end.

(** src/crypto/ed25519.rs:37-45 [read_ed25519_verifying_key] *)
Definition read_ed25519_verifying_key (data : list byte) : option (EdPub C) :=
  match ed_from_raw C data with
  | Some k => Some k
  | None => ed_from_spki C data
  end.

(** src/crypto/mod.rs:285-299 [from_key_data] *)
Definition vk_from_key_data (kt : KeyType) (data : list byte) : option VerifyingKey :=
  match kt with
  | Rsa => option_map VkRsa (read_rsa_public_key data)
  | Ed25519 => option_map VkEd25519 (read_ed25519_verifying_key data)
  end.

End WithCrypto.
Arguments SkRsa {C} k.
Arguments SkEd25519 {C} k.
Arguments VkRsa {C} k.
Arguments VkEd25519 {C} k.
