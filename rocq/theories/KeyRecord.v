(** Model of src/record.rs.  Definitions only.  The parameter [pre] is feature
    [pre-rfc8301]. *)

From Verif Require Import Base Utf8 BodyHash TagList Signature.
From Coq Require Import String.

(** src/record.rs:32-38 [ServiceType], 63-68 [SelectorFlag] *)
Inductive ServiceType := SvcAny | SvcEmail.
Inductive SelectorFlag := Testing | NoSubdomains.

(** src/record.rs:94-110 [DkimKeyRecordError] *)
Inductive KeyRecordError :=
| RecordFormat | KTagListFormat | MisplacedVersionTag | KIncompatibleVersion
| InvalidHashAlgorithm | NoSupportedHashAlgorithms | UnsupportedKeyType
| InvalidQuotedPrintable | KInvalidBase64 | InvalidServiceType
| NoSupportedServiceTypes | InvalidFlag | MissingKeyTag.

(** src/record.rs:138-153 [DkimKeyRecord] *)
Record KeyRecord := mkKeyRecord {
  k_hash_algorithms : list HashAlg;
  k_key_type : KeyType;
  k_notes : option str;
  k_key_data : list byte;
  k_service_types : list ServiceType;
  k_flags : list SelectorFlag;
  k_ext_tags : list (str * str)
}.

(** src/record.rs:182-195: loop over the hash algorithm names *)
Fixpoint parse_hash_algs (pre : bool) (ss : list str) : result (list HashAlg) KeyRecordError :=
  match ss with
  | [] => Ok []
  | s :: ss' =>
      if is_nil s then Err InvalidHashAlgorithm
      else
        match parse_hash_algs pre ss' with
        | Err e => Err e
        | Ok algs =>
            Ok (if eq_ignore_ascii_case s (lit "sha256") then Sha256 :: algs
                else if pre && eq_ignore_ascii_case s (lit "sha1") then Sha1 :: algs
                else algs)
        end
  end.

(** src/record.rs:232-242: loop over the service types *)
Fixpoint parse_service_types (ss : list str) : result (list ServiceType) KeyRecordError :=
  match ss with
  | [] => Ok []
  | s :: ss' =>
      if is_nil s then Err InvalidServiceType
      else
        match parse_service_types ss' with
        | Err e => Err e
        | Ok sts =>
            Ok (if leqb s (lit "*") then SvcAny :: sts
                else if eq_ignore_ascii_case s (lit "email") then SvcEmail :: sts
                else sts)
        end
  end.

(** src/record.rs:253-263: loop over the flags *)
Fixpoint parse_flags (ss : list str) : result (list SelectorFlag) KeyRecordError :=
  match ss with
  | [] => Ok []
  | s :: ss' =>
      if is_nil s then Err InvalidFlag
      else
        match parse_flags ss' with
        | Err e => Err e
        | Ok fs =>
            Ok (if eq_ignore_ascii_case s (lit "y") then Testing :: fs
                else if eq_ignore_ascii_case s (lit "s") then NoSubdomains :: fs
                else fs)
        end
  end.

(** src/record.rs:161-167: the local variables *)
Record PRec := mkPRec {
  pr_hash_algorithms : option (list HashAlg);
  pr_key_type : option KeyType;
  pr_notes : option str;
  pr_key_data : option (list byte);
  pr_service_types : option (list ServiceType);
  pr_flags : option (list SelectorFlag);
  pr_ext_tags : list (str * str)
}.
Definition prec_init : PRec := mkPRec None None None None None None [].

Section WithFeature.
Variable pre : bool.

(** src/record.rs:170-270: the body of the loop over the tags *)
Definition rec_tag (i : nat) (p : PRec) (t : TagSpec) : outcome (result PRec KeyRecordError) :=
  let name := tag_name t in
  let value := tag_value t in
  let '(mkPRec h k n kd st fl e) := p in
  if leqb name (lit "v") then
    Val (if negb (Nat.eqb i 0) then Err MisplacedVersionTag
         else if negb (leqb value (lit "DKIM1")) then Err KIncompatibleVersion
         else Ok p)
  else if leqb name (lit "h") then
    Val (match parse_hash_algs pre (parse_colon_separated_value value) with
         | Err er => Err er
         | Ok algs => if is_nil algs then Err NoSupportedHashAlgorithms
                      else Ok (mkPRec (Some algs) k n kd st fl e)
         end)
  else if leqb name (lit "k") then
    Val (if eq_ignore_ascii_case value (lit "rsa") then Ok (mkPRec h (Some Rsa) n kd st fl e)
         else if eq_ignore_ascii_case value (lit "ed25519") then
           Ok (mkPRec h (Some Ed25519) n kd st fl e)
         else Err UnsupportedKeyType)
  else if leqb name (lit "n") then
    let! r := parse_qp_section_value value in
    Val (match r with
         | None => Err InvalidQuotedPrintable
         | Some s => Ok (mkPRec h k (Some (from_utf8_lossy s)) kd st fl e)
         end)
  else if leqb name (lit "p") then
    Val (match parse_base64_value value with
         | None => Err KInvalidBase64
         | Some s => Ok (mkPRec h k n (Some s) st fl e)
         end)
  else if leqb name (lit "s") then
    Val (match parse_service_types (parse_colon_separated_value value) with
         | Err er => Err er
         | Ok sts => if is_nil sts then Err NoSupportedServiceTypes
                     else Ok (mkPRec h k n kd (Some sts) fl e)
         end)
  else if leqb name (lit "t") then
    Val (match parse_flags (parse_colon_separated_value value) with
         | Err er => Err er
         | Ok fs => Ok (mkPRec h k n kd st (Some fs) e)
         end)
  else Val (Ok (mkPRec h k n kd st fl (e ++ [(name, value)]))).

(** src/record.rs:169-271: the loop *)
Fixpoint rec_tags (i : nat) (p : PRec) (tags : list TagSpec) : outcome (result PRec KeyRecordError) :=
  match tags with
  | [] => Val (Ok p)
  | t :: tags' =>
      let! r := rec_tag i p t in
      match r with
      | Err e => Val (Err e)
      | Ok p' => rec_tags (S i) p' tags'
      end
  end.

(** src/record.rs:160-290 [from_tag_list] *)
Definition record_from_tags (tags : list TagSpec) : outcome (result KeyRecord KeyRecordError) :=
  let! r := rec_tags 0 prec_init tags in
  Val (match r with
       | Err e => Err e
       | Ok p =>
           match pr_key_data p with
           | None => Err MissingKeyTag
           | Some key_data =>
               Ok (mkKeyRecord (unwrap_or (pr_hash_algorithms p) (all_hash_algs pre))
                     (unwrap_or (pr_key_type p) Rsa) (pr_notes p) key_data
                     (unwrap_or (pr_service_types p) [SvcAny])
                     (unwrap_or (pr_flags p) []) (pr_ext_tags p))
           end
       end).

(** src/record.rs:301-306 [FromStr for DkimKeyRecord] *)
Definition record_from_str (s : str) : outcome (result KeyRecord KeyRecordError) :=
  match tag_list_from_str s with
  | Err _ => Val (Err KTagListFormat)
  | Ok tags => record_from_tags tags
  end.

End WithFeature.

(** src/record.rs:293-295 [is_testing] *)
Definition is_testing (r : KeyRecord) : bool :=
  existsb (fun f => match f with Testing => true | NoSubdomains => false end) (k_flags r).
