(** Model of reading signing keys: src/crypto/mod.rs:222-244. *)

From Coq Require Import List.
From Verif Require Import Base Crypto.

(** src/crypto/mod.rs:172-178 [DecodeSigningKeyError] *)
Inductive DecodeSigningKeyError :=
| InvalidPemDocument | NotAPrivateKeyInfoDocument | InvalidKeyData | SkUnsupportedKeyType.

(** Crates [pkcs8], [rsa], [ed25519-dalek]: a PEM document has a label and data,
    which may be a private key info, from which a key of either type may be made. *)
Record Pkcs8 (C : Crypto) := mkPkcs8 {
  pk_info : Type;
  pk_document : str -> option (str * list byte);     (* Document::from_pem *)
  pk_label_ok : str -> bool;                         (* PrivateKeyInfo::validate_pem_label *)
  pk_read_info : list byte -> option pk_info;        (* PrivateKeyInfo::try_from *)
  pk_rsa : pk_info -> option (RsaPriv C);            (* RsaPrivateKey::try_from *)
  pk_ed25519 : pk_info -> option (EdPriv C)          (* Ed25519SigningKey::try_from *)
}.
Arguments pk_info {C}. Arguments pk_document {C}. Arguments pk_label_ok {C}. Arguments pk_read_info {C}.
Arguments pk_rsa {C}. Arguments pk_ed25519 {C}.

(** src/crypto/mod.rs:224-244 [from_pkcs8_pem] *)
Definition from_pkcs8_pem {C : Crypto} (P : Pkcs8 C) (s : str) : result (SigningKey C) DecodeSigningKeyError :=
  match pk_document P s with
  | None => Err InvalidPemDocument
  | Some (label, doc) =>
      if negb (pk_label_ok P label) then Err NotAPrivateKeyInfoDocument
      else
        match pk_read_info P doc with
        | None => Err InvalidKeyData
        | Some pk =>
            match pk_rsa P pk with
            | Some k => Ok (SkRsa k)
            | None =>
                match pk_ed25519 P pk with
                | Some k => Ok (SkEd25519 k)
                | None => Err SkUnsupportedKeyType
                end
            end
        end
  end.
