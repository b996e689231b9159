(** Specification of what reports and written key records say. *)

From Coq Require Import String List.
From Verif Require Import Base BodyHash TagList Signature KeyRecord Verify SpecText SpecTag SpecSig SpecRecord.

(** the same error, but for the data salvaged from a broken signature *)
Inductive same_error : VerificationError -> VerificationError -> Prop :=
| se_signature : forall e e', se_kind e = se_kind e' -> same_error (DkimSignatureFormat e) (DkimSignatureFormat e')
| se_other : forall e, same_error e e.

(** RFC 8601, section 2.7.1 *)
Inductive result_word : DkimResult -> string -> Prop :=
| rw_none : result_word RNone "none"
| rw_pass : result_word RPass "pass"
| rw_fail : result_word RFail "fail"
| rw_policy : result_word RPolicy "policy"
| rw_neutral : result_word RNeutral "neutral"
| rw_temperror : result_word RTemperror "temperror"
| rw_permerror : result_word RPermerror "permerror".

(** errors about one tag *)
Inductive tag_missing : SigErrorKind -> string -> Prop :=
| tm_v : tag_missing EMissingVersionTag "v"
| tm_a : tag_missing EMissingAlgorithmTag "a"
| tm_b : tag_missing EMissingSignatureTag "b"
| tm_bh : tag_missing EMissingBodyHashTag "bh"
| tm_d : tag_missing EMissingDomainTag "d"
| tm_h : tag_missing EMissingSignedHeadersTag "h"
| tm_s : tag_missing EMissingSelectorTag "s".

Inductive tag_empty : SigErrorKind -> string -> Prop :=
| te_b : tag_empty EEmptySignatureTag "b"
| te_bh : tag_empty EEmptyBodyHashTag "bh"
| te_h : tag_empty EEmptySignedHeadersTag "h".

(** one line of words: printable ASCII, single spaces between *)
Definition one_line (s : str) : Prop :=
  s <> [] /\ Forall (fun c => 32 <= c <= 126) s
  /\ (forall a b, s <> a ++ [32; 32] ++ b) /\ (forall a, s <> a ++ [32]) /\ (forall a, s <> 32 :: a).

(** tags separated by a semicolon and a space *)
Fixpoint written_tags (tags : list (str * str)) : str :=
  match tags with
  | [] => []
  | [(n, v)] => n ++ [61] ++ v
  | (n, v) :: tags' => n ++ [61] ++ v ++ [59; 32] ++ written_tags tags'
  end.

(** the tags of a key record in the order of RFC 6376, section 3.6.1; [p] is the key data in base64 *)
Definition record_tags (hash : HashAlg -> str) (key : KeyType -> str) (service : ServiceType -> str) (flag : SelectorFlag -> str)
    (r : KeyRecord) (p : str) : list (str * str) :=
  [(lit "v", lit "DKIM1");
   (lit "h", colon_joined (map hash (k_hash_algorithms r)));
   (lit "k", key (k_key_type r));
   (lit "p", p);
   (lit "s", colon_joined (map service (k_service_types r)))]
  ++ match k_flags r with [] => [] | _ :: _ => [(lit "t", colon_joined (map flag (k_flags r)))] end
  ++ k_ext_tags r.

(** records that can be written so *)
Definition writable (pre : bool) (r : KeyRecord) : Prop :=
  k_hash_algorithms r <> [] /\ (pre = false -> ~ In Sha1 (k_hash_algorithms r))
  /\ Forall is_byte (k_key_data r) /\ k_service_types r <> [] /\ k_notes r = None
  /\ NoDup (map fst (k_ext_tags r))
  /\ Forall (fun '(n, v) => tag_name_text n /\ (v = [] \/ tag_value_text v) /\ ~ In n known_key_tags) (k_ext_tags r).
