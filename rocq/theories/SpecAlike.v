(** Specification of key records that serve the same. *)

From Coq Require Import List.
From Verif Require Import Base Utf8 BodyHash TagList Signature KeyRecord Crypto Sign Verify SpecCause.
Import ListNotations.
Open Scope N_scope.

(** the same key, usable with the same hash algorithms and identities *)
Definition alike_keys (k k' : KeyRecord) : Prop :=
  k_key_type k = k_key_type k' /\ k_key_data k = k_key_data k'
  /\ (forall h, In h (k_hash_algorithms k) <-> In h (k_hash_algorithms k'))
  /\ (In NoSubdomains (k_flags k) <-> In NoSubdomains (k_flags k')).

Section WithEnv.
Variable E : Env.

Inductive alike_texts : IoResult (list byte) -> IoResult (list byte) -> Prop :=
| al_same : forall txt, alike_texts txt txt
| al_record : forall txt txt' k k', record_reads_as E txt k -> record_reads_as E txt' k' -> alike_keys k k' ->
    alike_texts txt txt'.

(** answers of DNS *)
Inductive alike_answers : IoResult (list (IoResult (list byte))) -> IoResult (list (IoResult (list byte))) -> Prop :=
| aa_error : forall e, alike_answers (Err e) (Err e)
| aa_records : forall txts txts', Forall2 alike_texts txts txts' -> alike_answers (Ok txts) (Ok txts').

(** results *)
Definition alike_results (r r' : VerificationResult) : Prop :=
  vr_status r = vr_status r' /\ vr_index r = vr_index r' /\ vr_signature r = vr_signature r'
  /\ match vr_key_record r, vr_key_record r' with
     | Some k, Some k' => alike_keys k k'
     | None, None => True
     | _, _ => False
     end.
End WithEnv.

Definition with_key_tags (ext : list (str * str)) (k : KeyRecord) : KeyRecord :=
  mkKeyRecord (k_hash_algorithms k) (k_key_type k) (k_notes k) (k_key_data k) (k_service_types k) (k_flags k) ext.
