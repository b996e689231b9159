(** Property C60: signing keys read from PEM documents. *)

From Coq Require Import String List.
From Verif Require Import Base Crypto Pem SpecSign SpecPem PemProofs Lib Sample PropOutput.
Import ListNotations.
Open Scope N_scope.

(** ** C60 *)

(** Exactly the documents with a private key of one of the two types are accepted,
    and the key is that key. *)
Theorem C60_key : forall C (P : Pkcs8 C) s,
  (forall k, from_pkcs8_pem P s = Ok (SkRsa k) <-> exists pk, private_key P s pk /\ pk_rsa P pk = Some k)
  /\ (forall k, from_pkcs8_pem P s = Ok (SkEd25519 k) <-> exists pk, private_key P s pk /\ pk_rsa P pk = None /\ pk_ed25519 P pk = Some k).
Proof. exact pem_key. Qed.
Print Assumptions C60_key.

(** Otherwise the error is the first in this order. *)
Theorem C60_error : forall C (P : Pkcs8 C) s e, from_pkcs8_pem P s = Err e <->
  first_of
    [ (pk_document P s = None, InvalidPemDocument);
      ((exists label doc, pk_document P s = Some (label, doc) /\ pk_label_ok P label = false), NotAPrivateKeyInfoDocument);
      ((forall pk, ~ private_key P s pk), InvalidKeyData);
      ((forall pk, private_key P s pk -> pk_rsa P pk = None /\ pk_ed25519 P pk = None), SkUnsupportedKeyType) ] (Some e).
Proof. exact pem_error. Qed.
Print Assumptions C60_error.

(** documents that are a label, a colon, and a key type before the key *)
Definition sample_pem : Pkcs8 sized_crypto :=
  mkPkcs8 sized_crypto (list byte)
    (fun s => match s with l :: 58 :: doc => Some ([l], doc) | _ => None end)
    (fun l => leqb l (lit "P"))
    (fun doc => match doc with _ :: _ :: _ => Some doc | _ => None end)
    (fun pk => match pk with 82 :: k :: _ => Some k | _ => None end)
    (fun pk => match pk with 69 :: _ :: _ => Some 9 | _ => None end).

Example C60_example :
  from_pkcs8_pem sample_pem (lit "P:RA") = Ok (SkRsa (C := sized_crypto) 65)
  /\ (exists k, from_pkcs8_pem sample_pem (lit "P:EA") = Ok (SkEd25519 (C := sized_crypto) k))
  /\ map (fun s => from_pkcs8_pem sample_pem (lit s)) ["P"; "Q:RA"; "P:R"; "P:XA"]%string
     = map Err [InvalidPemDocument; NotAPrivateKeyInfoDocument; InvalidKeyData; SkUnsupportedKeyType].
Proof. split; [reflexivity|]. split; [eexists; reflexivity|reflexivity]. Qed.
