(** Specification of DKIM signatures: what each tag means, and what makes a
    list of tags a signature (RFC 6376, section 3.5). *)

From Coq Require Import String List.
From Verif Require Import Base Utf8 Canon BodyHash TagList Domain Signature
  SpecText SpecHeader SpecTag SpecCanon SpecDomain.

(** ** Names *)

Definition named (t : str) (name : string) : Prop := lower t = lit name.

Inductive algorithm_text (pre : bool) (t : str) : SigningAlg -> Prop :=
| at_rsa : named t "rsa-sha256" -> algorithm_text pre t RsaSha256
| at_ed : named t "ed25519-sha256" -> algorithm_text pre t Ed25519Sha256
| at_sha1 : pre = true -> named t "rsa-sha1" -> algorithm_text pre t RsaSha1.

Inductive canon_alg_text (t : str) : CanonAlg -> Prop :=
| ct_simple : named t "simple" -> canon_alg_text t Simple
| ct_relaxed : named t "relaxed" -> canon_alg_text t Relaxed.

(** header "/" body, or header alone with a simple body *)
Inductive canonicalization_text : str -> Canonicalization -> Prop :=
| cz_both : forall h b ch cb, canon_alg_text h ch -> canon_alg_text b cb ->
    canonicalization_text (h ++ [47] ++ b) (mkCanon ch cb)
| cz_header : forall h ch, canon_alg_text h ch -> canonicalization_text h (mkCanon ch Simple).

(** ** Numbers *)

Definition decimal (digits : str) : N := fold_left (fun acc c => acc * 10 + (c - 48)) digits 0.
(** decimal digits, in the code possibly after a plus sign *)
Definition number_text (t : str) (n : N) : Prop :=
  exists digits, digits <> [] /\ Forall (fun c => 48 <= c <= 57) digits
    /\ (t = digits \/ t = 43 :: digits) /\ n = decimal digits /\ n < 2^64.

(** ** Values of tags *)

Definition base64_text (t : str) (bs : list byte) : Prop :=
  Forall is_byte bs /\ exists s, base64 bs s
    /\ inserted (Forall (fun c => c = 32 \/ c = 9 \/ c = 13 \/ c = 10)) s t.

Definition signed_headers_text (t : str) (names : list str) : Prop :=
  colon_list t names /\ Forall field_name names.

Definition identity_tag_text (idna : Idna) (t : str) (i : Identity) : Prop :=
  exists s, Forall is_scalar s /\ qp_text t (as_bytes s) /\ identity_text idna s i.

Fixpoint bar_joined (l : list str) : str :=
  match l with
  | [] => []
  | [x] => x
  | x :: l' => x ++ [124] ++ bar_joined l'
  end.
Definition copied_headers_text (t : str) (hs : list (str * list byte)) : Prop :=
  exists pieces, pieces <> [] /\ Forall (fun p => ~ In 124 p) pieces /\ t = bar_joined pieces
    /\ Forall2 (fun p '(n, v) => field_name n /\ qp_text p (n ++ [58] ++ v)) pieces hs.

Definition query_methods_text (t : str) (ms : list str) : Prop := colon_list t ms /\ ~ In [] ms.

(** ** Tags *)

(** the value of the tag with the given name *)
Fixpoint tag_get (name : str) (tags : list TagSpec) : option str :=
  match tags with
  | [] => None
  | t :: ts => if leqb (tag_name t) name then Some (tag_value t) else tag_get name ts
  end.

Definition get (name : string) (tags : list TagSpec) : option str := tag_get (lit name) tags.

(** an optional tag *)
Definition optional {A} (R : str -> A -> Prop) (t : option str) (v : option A) : Prop :=
  match t, v with
  | None, None => True
  | Some t, Some v => R t v
  | _, _ => False
  end.

Definition known_sig_tags : list str :=
  map lit ["v"; "a"; "b"; "bh"; "c"; "d"; "h"; "i"; "l"; "q"; "s"; "t"; "x"; "z"]%string.

(** tags not otherwise interpreted, in order *)
Fixpoint ext_tags (known : list str) (tags : list TagSpec) : list (str * str) :=
  match tags with
  | [] => []
  | t :: ts =>
      if mem_str (tag_name t) known then ext_tags known ts
      else (tag_name t, tag_value t) :: ext_tags known ts
  end.

Section WithIdna.
Variable pre : bool.
Variable idna : Idna.

(** [sig] is the signature that the tags describe *)
Definition signature_of (tags : list TagSpec) (sig : DkimSig) : Prop :=
  get "v" tags = Some (lit "1")
  /\ (exists t, get "a" tags = Some t /\ algorithm_text pre t (s_algorithm sig))
  /\ (exists t, get "b" tags = Some t /\ base64_text t (s_signature_data sig) /\ s_signature_data sig <> [])
  /\ (exists t, get "bh" tags = Some t /\ base64_text t (s_body_hash sig) /\ s_body_hash sig <> [])
  /\ match get "c" tags with
     | Some t => canonicalization_text t (s_canonicalization sig)
     | None => s_canonicalization sig = mkCanon Simple Simple
     end
  /\ (get "d" tags = Some (s_domain sig) /\ domain_text idna (s_domain sig) true)
  /\ (exists t, get "h" tags = Some t /\ signed_headers_text t (s_signed_headers sig)
      /\ exists n, In n (s_signed_headers sig) /\ same_name n (lit "From"))
  /\ optional (identity_tag_text idna) (get "i" tags) (s_identity sig)
  /\ optional number_text (get "l" tags) (s_body_length sig)
  /\ match get "q" tags with
     | Some t => exists ms, query_methods_text t ms /\ exists m, In m ms /\ named m "dns/txt"
     | None => True
     end
  /\ (get "s" tags = Some (s_selector sig) /\ domain_text idna (s_selector sig) false)
  /\ optional number_text (get "t" tags) (s_timestamp sig)
  /\ optional number_text (get "x" tags) (s_expiration sig)
  /\ match get "z" tags with
     | Some t => copied_headers_text t (s_copied_headers sig)
     | None => s_copied_headers sig = []
     end
  /\ s_ext_tags sig = ext_tags known_sig_tags tags
  /\ match s_identity sig with
     | Some i => lower (id_domain i) = lower (s_domain sig)
                 \/ ascii_subdomain idna (id_domain i) (s_domain sig)
     | None => True
     end
  /\ match s_timestamp sig, s_expiration sig with
     | Some t, Some x => t < x
     | _, _ => True
     end.

(** what is wrong with a single tag *)
Inductive tag_error : string -> str -> SigErrorKind -> Prop :=
| te_v : forall t, t <> lit "1" -> tag_error "v" t EIncompatibleVersion
| te_a_historic : forall t, pre = false -> named t "rsa-sha1" -> tag_error "a" t EHistoricAlgorithm
| te_a : forall t, ~ named t "rsa-sha1" -> (forall a, ~ algorithm_text pre t a) ->
    tag_error "a" t EUnsupportedAlgorithm
| te_b : forall t, (forall bs, ~ base64_text t bs) -> tag_error "b" t EInvalidBase64
| te_b_empty : forall t, base64_text t [] -> tag_error "b" t EEmptySignatureTag
| te_bh : forall t, (forall bs, ~ base64_text t bs) -> tag_error "bh" t EInvalidBase64
| te_bh_empty : forall t, base64_text t [] -> tag_error "bh" t EEmptyBodyHashTag
| te_c : forall t, (forall c, ~ canonicalization_text t c) -> tag_error "c" t EUnsupportedCanonicalization
| te_d : forall t, ~ domain_text idna t true -> tag_error "d" t EInvalidDomain
| te_h_empty : tag_error "h" [] EEmptySignedHeadersTag
| te_h : forall t, t <> [] -> (forall ns, ~ signed_headers_text t ns) ->
    tag_error "h" t EInvalidSignedHeaderName
| te_h_from : forall t ns, t <> [] -> signed_headers_text t ns ->
    (forall n, In n ns -> ~ same_name n (lit "From")) -> tag_error "h" t EFromHeaderNotSigned
| te_i : forall t, (forall i, ~ identity_tag_text idna t i) -> tag_error "i" t EInvalidIdentity
| te_l : forall t, (forall n, ~ number_text t n) -> tag_error "l" t EInvalidBodyLength
| te_q : forall t, (forall ms, ~ query_methods_text t ms) -> tag_error "q" t EInvalidQueryMethod
| te_q_none : forall t ms, query_methods_text t ms -> (forall m, In m ms -> ~ named m "dns/txt") ->
    tag_error "q" t ENoSupportedQueryMethods
| te_s : forall t, ~ domain_text idna t false -> tag_error "s" t EInvalidSelector
| te_t : forall t, (forall n, ~ number_text t n) -> tag_error "t" t EInvalidTimestamp
| te_x : forall t, (forall n, ~ number_text t n) -> tag_error "x" t EInvalidExpiration
| te_z : forall t, (forall hs, ~ copied_headers_text t hs) -> tag_error "z" t EInvalidCopiedHeaderField.

Definition bad_tag (t : TagSpec) (k : SigErrorKind) : Prop :=
  exists n, tag_name t = lit n /\ tag_error n (tag_value t) k.

(** mandatory tags, in the order in which their absence is reported *)
Definition mandatory : list (string * SigErrorKind) :=
  [("v", EMissingVersionTag); ("a", EMissingAlgorithmTag); ("b", EMissingSignatureTag);
   ("bh", EMissingBodyHashTag); ("d", EMissingDomainTag); ("h", EMissingSignedHeadersTag);
   ("s", EMissingSelectorTag)]%string.

Definition all_present (tags : list TagSpec) (l : list (string * SigErrorKind)) : Prop :=
  Forall (fun m => get (fst m) tags <> None) l.

(** identity and domain do not match *)
Definition mismatch (tags : list TagSpec) : Prop :=
  exists t i d, get "i" tags = Some t /\ identity_tag_text idna t i
    /\ get "d" tags = Some d
    /\ ~ (lower (id_domain i) = lower d \/ ascii_subdomain idna (id_domain i) d).

(** the first problem of the tags *)
Inductive first_error (tags : list TagSpec) : SigErrorKind -> Prop :=
| fe_tag : forall before t after k, tags = before ++ t :: after ->
    (forall u k', In u before -> ~ bad_tag u k') -> bad_tag t k -> first_error tags k
| fe_missing : forall before n k after, (forall u k', In u tags -> ~ bad_tag u k') ->
    mandatory = before ++ (n, k) :: after -> all_present tags before ->
    get n tags = None -> first_error tags k
| fe_domain : (forall u k', In u tags -> ~ bad_tag u k') -> all_present tags mandatory ->
    mismatch tags -> first_error tags EDomainMismatch
| fe_expiration : forall t1 t2 t x, (forall u k', In u tags -> ~ bad_tag u k') ->
    all_present tags mandatory -> ~ mismatch tags ->
    get "t" tags = Some t1 -> number_text t1 t ->
    get "x" tags = Some t2 -> number_text t2 x -> x <= t ->
    first_error tags EExpirationNotAfterTimestamp.

End WithIdna.
