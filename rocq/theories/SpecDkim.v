(** What makes a DKIM signature valid, in one definition after RFC 6376: section 3.5
    (signatures), 3.6.1 (key records), 3.7 (hashes), 6.1 (verification), 5.4.2 (fields
    from the bottom).  Nothing here refers to functions of the model, only to its types. *)

From Coq Require Import String List.
From Verif Require Import Base Utf8 Canon BodyHash TagList Domain Signature KeyRecord Crypto Verify
  SpecText SpecCanon SpecHash SpecHeader SpecTag SpecDomain SpecSig SpecRecord SpecSign SpecOutput SpecVerify SpecEnd.

(** the canonical form of a body after section 3.4 *)
Definition rfc_body (alg : CanonAlg) (body : list byte) : list byte :=
  match alg with
  | Simple => rfc_simple_body body
  | Relaxed => rfc_relaxed_body body
  end.

(** bodies other than the two corner cases of C02 and C03 *)
Definition regular_body (alg : CanonAlg) (body : list byte) : Prop :=
  match alg with
  | Simple => only_crlfs body = false
  | Relaxed => ends_in_wsp_line body = false
  end.

(** a text is a list of these tags *)
Definition tags_of (s : str) (tags : list TagSpec) : Prop :=
  tag_list_text s (map (fun t => (tag_name t, tag_value t)) tags) /\ NoDup (map tag_name tags).

Section WithEnv.
Variable E : Env.
Notation C := (env_crypto E).
Notation idna := (env_idna E).
(** the canonical form of bodies *)
Variable canonical : CanonAlg -> list byte -> list byte.

(** the text hashed and signed: the signed header fields, then the signature's own
    field without the value of b= *)
Definition signed_data (headers : list HeaderField) (sig : DkimSig) (name s : str) (tags : list TagSpec) (data : list byte) : Prop :=
  exists v s', get "b" tags = Some v /\ signature_removed s v s'
    /\ data = header_hash_input (c_header (s_canonicalization sig)) headers (s_signed_headers sig)
              ++ canonical_field (c_header (s_canonicalization sig)) (name, as_bytes s').

(** the body, up to the length in the signature, has the hash in the signature *)
Definition body_hashed (sig : DkimSig) (body rest : list byte) : Prop :=
  exists covered, canonical (c_body (s_canonicalization sig)) body = covered ++ rest
    /\ hash_fn C (alg_hash (s_algorithm sig)) covered = s_body_hash sig
    /\ match s_body_length sig with
       | Some l => N.of_nat (length covered) = l
       | None => rest = []
       end.

(** the record can be used for the signature, and has this key *)
Definition key_for (sig : DkimSig) (config : Config) (txt : list byte) (k : KeyRecord) (key : VerifyingKey C) : Prop :=
  (exists s tags, Forall is_scalar s /\ txt = as_bytes s /\ tags_of s tags /\ record_of (env_pre E) tags k)
  /\ k_key_type k = key_type_for (s_algorithm sig)
  /\ k_key_data k <> []
  /\ In (alg_hash (s_algorithm sig)) (k_hash_algorithms k)
  /\ (In NoSubdomains (k_flags k) -> forall i, s_identity sig = Some i ->
        idna_to_ascii idna (id_domain i) = idna_to_ascii idna (s_domain sig))
  /\ key_in E (k_key_type k) (k_key_data k) key
  /\ (forall pk, key = VkRsa pk ->
        N.max (if env_pre E then 512 else 1024) (cf_min_key_bits config) <= rsa_size C pk * 8).

(** the record is among those published for the domain and selector of the signature
    that are looked at *)
Definition published (zone : str -> IoResult (list (IoResult (list byte)))) (sig : DkimSig) (txt : list byte) : Prop :=
  exists d sl txts, idna_to_ascii idna (s_domain sig) = Some d /\ idna_to_ascii idna (s_selector sig) = Some sl
    /\ zone (sl ++ lit "._domainkey." ++ d ++ lit ".") = Ok txts /\ In (Ok txt) (consulted txts).

(** The field [name: value] is a valid signature [sig] of the message, confirmed by key
    record [k], and admitted by [config]. *)
Definition valid_dkim (zone : str -> IoResult (list (IoResult (list byte)))) (config : Config) (now : N)
    (headers : list HeaderField) (body : list byte) (name : str) (value : list byte) (sig : DkimSig) (k : KeyRecord) : Prop :=
  exists s tags txt key data rest,
    Forall is_scalar s /\ value = as_bytes s /\ tags_of s tags /\ signature_of (env_pre E) idna tags sig
    /\ signature_good E headers config now sig
    /\ published zone sig txt /\ key_for sig config txt k key
    /\ signed_data headers sig name s tags data
    /\ verifies E key (alg_hash (s_algorithm sig)) (hash_fn C (alg_hash (s_algorithm sig)) data) (s_signature_data sig)
    /\ body_hashed sig body rest /\ (cf_forbid_unsigned_content config = true -> rest = []).

(** The text [s] describes a signature [sig] made for the message with private key
    [key], by whatever program: in any layout, with tags in any order. *)
Definition signed_by (key : SigningKey C) (headers : list HeaderField) (body : list byte) (name s : str) (sig : DkimSig) : Prop :=
  exists tags data rest,
    Forall is_scalar s /\ tags_of s tags /\ signature_of (env_pre E) idna tags sig
    /\ signed_data headers sig name s tags data
    /\ primitive_sign E key (s_algorithm sig) (hash_fn C (alg_hash (s_algorithm sig)) data) = Some (s_signature_data sig)
    /\ body_hashed sig body rest.

End WithEnv.
