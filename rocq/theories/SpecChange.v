(** Changes to a message that leave a signature valid. *)

From Coq Require Import String List NArith.
From Verif Require Import Base Canon Header Signature KeyRecord Crypto Verify
  SpecCanon SpecHash SpecHeader SpecSign SpecOutput SpecVerify SpecEnd SpecDkim SpecTransit SpecAuthor.
Import ListNotations.
Open Scope N_scope.

(** the bodies for which a line break at the end makes a difference: see C02, C03 *)
Definition exceptional (alg : CanonAlg) (b : list byte) : Prop :=
  match alg with Simple => b = [] | Relaxed => ends_in_wsp_line b = true end.

Section WithEnv.
Variable E : Env.

(** The result for the field [name: value] of a message, verified at time [now] when
    DNS has the contents [zone]. *)
Definition result_of (config : Config) (zone : str -> IoResult (list (IoResult (list byte)))) (now : N)
    (headers : list HeaderField) (body : list byte) (name : str) (value : list byte) (r : VerificationResult) : Prop :=
  exists w chunks rs i,
    world_ok w /\ steady (w_resolver w) zone /\ header_fields headers /\ body = concat chunks
    /\ verify_message E w headers config chunks = Val (Some rs) /\ result_for config headers rs i name value r
    /\ w_clock w i = now.

(** The body has been changed only in ways that canonicalization disregards, or only in
    the part beyond the length in the signature, if that is allowed; or else a collision
    was found. *)
Definition body_kept (config : Config) (sig : DkimSig) (body body' : list byte) : Prop :=
  let alg := c_body (s_canonicalization sig) in
  let hash := alg_hash (s_algorithm sig) in
  match s_body_length sig with
  | None => same_body alg body body' \/ collision E hash (canonical_body alg body) (canonical_body alg body')
  | Some l =>
      let first b := firstn (N.to_nat l) (canonical_body alg b) in
      let size := N.of_nat (length (canonical_body alg body')) in
      l <= size /\ (cf_forbid_unsigned_content config = true -> size = l)
      /\ (first body = first body' \/ collision E hash (first body) (first body'))
  end.

(** Of each name, the fields covered by the signature are the same, up to the header
    canonicalization, and so is the name of the signature's field. *)
Definition fields_kept (sig : DkimSig) (name name' : str) (headers headers' : list HeaderField) : Prop :=
  let alg := c_header (s_canonicalization sig) in
  match alg with Simple => name = name' | Relaxed => same_name name name' end
  /\ forall n, let k := occurrences n (s_signed_headers sig) in Forall2 (same_field alg) (lowest k n headers) (lowest k n headers').

(** all fields of the names that may not be left unsigned are signed *)
Definition protected_signed (config : Config) (sig : DkimSig) (headers : list HeaderField) : Prop :=
  forall n, In n (cf_headers_forbidden_to_be_unsigned config) ->
    (occurrences n (map fst headers) <= occurrences n (s_signed_headers sig))%nat.

(** DNS has one TXT record for the signature *)
Definition one_record (zone : str -> IoResult (list (IoResult (list byte)))) (sig : DkimSig) : Prop :=
  forall p, lookup_pair E sig p -> exists txt, zone (key_name p) = Ok [txt].

End WithEnv.
