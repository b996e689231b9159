(** Specification of DKIM key records (RFC 6376, section 3.6.1). *)

From Coq Require Import String List.
From Verif Require Import Base Utf8 BodyHash TagList Signature KeyRecord SpecText SpecTag SpecSig.

(** ** Lenient UTF-8 *)

(** a proper part of the encoding of a character, from its start *)
Definition begins_char (p : list byte) : Prop :=
  exists c x, is_scalar c /\ x <> [] /\ utf8_char c = p ++ x.

(** Valid characters are decoded; a maximal part that starts like a character but
    does not end like one, or else a single byte, becomes U+FFFD. *)
Inductive lossy_text : list byte -> str -> Prop :=
| lo_nil : lossy_text [] []
| lo_char : forall c bs s, is_scalar c -> lossy_text bs s -> lossy_text (utf8_char c ++ bs) (c :: s)
| lo_bad : forall bad bs s, no_char_at (bad ++ bs) -> bad <> [] ->
    (begins_char bad \/ exists b, bad = [b]) ->
    (forall p q, bs = p ++ q -> p <> [] -> ~ begins_char (bad ++ p)) ->
    lossy_text bs s -> lossy_text (bad ++ bs) (0xFFFD :: s).

(** ** Names *)

Inductive hash_name (pre : bool) (t : str) : option HashAlg -> Prop :=
| hn_sha256 : named t "sha256" -> hash_name pre t (Some Sha256)
| hn_sha1 : pre = true -> named t "sha1" -> hash_name pre t (Some Sha1)
| hn_sha1_not : pre = false -> named t "sha1" -> hash_name pre t None
| hn_unknown : ~ named t "sha256" -> ~ named t "sha1" -> hash_name pre t None.

Inductive key_type_name (t : str) : KeyType -> Prop :=
| kn_rsa : named t "rsa" -> key_type_name t Rsa
| kn_ed : named t "ed25519" -> key_type_name t Ed25519.

Inductive service_name (t : str) : option ServiceType -> Prop :=
| sn_any : t = lit "*" -> service_name t (Some SvcAny)
| sn_email : named t "email" -> service_name t (Some SvcEmail)
| sn_unknown : t <> lit "*" -> ~ named t "email" -> service_name t None.

Inductive flag_name (t : str) : option SelectorFlag -> Prop :=
| fn_testing : named t "y" -> flag_name t (Some Testing)
| fn_nosub : named t "s" -> flag_name t (Some NoSubdomains)
| fn_unknown : ~ named t "y" -> ~ named t "s" -> flag_name t None.

(** ** Values *)

(** the recognised ones among the items *)
Inductive recognised {A} (R : str -> option A -> Prop) : list str -> list A -> Prop :=
| rc_nil : recognised R [] []
| rc_some : forall s a ss l, R s (Some a) -> recognised R ss l -> recognised R (s :: ss) (a :: l)
| rc_none : forall s ss l, R s None -> recognised R ss l -> recognised R (s :: ss) l.

(** a colon-separated list without empty items *)
Definition items_text (t : str) (items : list str) : Prop := colon_list t items /\ ~ In [] items.

Definition names_text {A} (R : str -> option A -> Prop) (t : str) (l : list A) : Prop :=
  exists items, items_text t items /\ recognised R items l.

Definition notes_text (t : str) (s : str) : Prop :=
  exists bs, qp_section t bs /\ lossy_text bs s.

(** ** Records *)

Definition known_key_tags : list str := map lit ["v"; "h"; "k"; "n"; "p"; "s"; "t"]%string.

Definition or_default {A} (R : str -> A -> Prop) (default : A) (t : option str) (v : A) : Prop :=
  match t with Some t => R t v | None => v = default end.

Section WithFeature.
Variable pre : bool.

Definition record_of (tags : list TagSpec) (r : KeyRecord) : Prop :=
  (forall before t after, tags = before ++ t :: after -> tag_name t = lit "v" ->
     before = [] /\ tag_value t = lit "DKIM1")
  /\ or_default (fun t v => names_text (hash_name pre) t v /\ v <> [])
       (if pre then [Sha256; Sha1] else [Sha256]) (get "h" tags) (k_hash_algorithms r)
  /\ or_default key_type_name Rsa (get "k" tags) (k_key_type r)
  /\ optional notes_text (get "n" tags) (k_notes r)
  /\ (exists t, get "p" tags = Some t /\ base64_text t (k_key_data r))
  /\ or_default (fun t v => names_text service_name t v /\ v <> []) [SvcAny]
       (get "s" tags) (k_service_types r)
  /\ or_default (names_text flag_name) [] (get "t" tags) (k_flags r)
  /\ k_ext_tags r = ext_tags known_key_tags tags.

(** what is wrong with a single tag; [first]: it is the first one *)
Inductive key_tag_error : string -> bool -> str -> KeyRecordError -> Prop :=
| ke_v_place : forall t, key_tag_error "v" false t MisplacedVersionTag
| ke_v : forall t, t <> lit "DKIM1" -> key_tag_error "v" true t KIncompatibleVersion
| ke_h : forall f t, (forall items, ~ items_text t items) -> key_tag_error "h" f t InvalidHashAlgorithm
| ke_h_none : forall f t, names_text (hash_name pre) t [] -> key_tag_error "h" f t NoSupportedHashAlgorithms
| ke_k : forall f t, (forall k, ~ key_type_name t k) -> key_tag_error "k" f t UnsupportedKeyType
| ke_n : forall f t, (forall bs, ~ qp_section t bs) -> key_tag_error "n" f t InvalidQuotedPrintable
| ke_p : forall f t, (forall bs, ~ base64_text t bs) -> key_tag_error "p" f t KInvalidBase64
| ke_s : forall f t, (forall items, ~ items_text t items) -> key_tag_error "s" f t InvalidServiceType
| ke_s_none : forall f t, names_text service_name t [] -> key_tag_error "s" f t NoSupportedServiceTypes
| ke_t : forall f t, (forall items, ~ items_text t items) -> key_tag_error "t" f t InvalidFlag.

Definition bad_key_tag (first : bool) (t : TagSpec) (e : KeyRecordError) : Prop :=
  exists n, tag_name t = lit n /\ key_tag_error n first (tag_value t) e.

Definition is_first (before : list TagSpec) : bool := match before with [] => true | _ => false end.

Definition no_bad_tag (tags : list TagSpec) : Prop :=
  forall before t after e, tags = before ++ t :: after -> ~ bad_key_tag (is_first before) t e.

Inductive key_first_error (tags : list TagSpec) : KeyRecordError -> Prop :=
| kf_tag : forall before t after e, tags = before ++ t :: after ->
    no_bad_tag before -> bad_key_tag (is_first before) t e -> key_first_error tags e
| kf_missing : no_bad_tag tags -> get "p" tags = None -> key_first_error tags MissingKeyTag.

End WithFeature.
