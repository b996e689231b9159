(** Specification of documents with private keys. *)

From Coq Require Import List.
From Verif Require Import Base Crypto Pem.

(** a private key info document, and what is in it *)
Definition private_key {C} (P : Pkcs8 C) (s : str) (pk : pk_info P) : Prop :=
  exists label doc, pk_document P s = Some (label, doc) /\ pk_label_ok P label = true /\ pk_read_info P doc = Some pk.
