(** Specification of the example programs. *)

From Coq Require Import String List Permutation.
From Verif Require Import Base Utf8 Canon BodyHash Header Domain Signature KeyRecord Crypto Format Sign Verify Pem Programs
  SpecText SpecCanon SpecHash SpecHeader SpecTag SpecDomain SpecSig SpecRecord SpecFormat SpecSign SpecOutput SpecVerify SpecEnd.
Import ListNotations.
Open Scope N_scope.

(** [t] is [s] with CR LF for each LF *)
Inductive breaks : str -> str -> Prop :=
| br_nil : breaks [] []
| br_char : forall c s t, c <> 10 -> breaks s t -> breaks (c :: s) (c :: t)
| br_break : forall s t, breaks s t -> breaks (10 :: s) (13 :: 10 :: t).

(** [header] is what precedes the first empty line *)
Definition message_text (text header body : str) : Prop :=
  text = header ++ [10; 10] ++ body /\ forall a b, header ++ [10] <> a ++ [10; 10] ++ b.

(** Standard input is a message: text with an empty line, the part before it being
    header fields. *)
Definition message_input (stdin : list byte) (headers : list HeaderField) (body : list byte) : Prop :=
  exists text h b h' b', stdin = as_bytes text /\ Forall is_scalar text /\ message_text text h b
    /\ breaks h h' /\ breaks b b' /\ header_fields_from_str h' = Some headers /\ body = as_bytes b'.

(** the text of a signing output on standard output *)
Definition printed (o : SigningOutput) (t : str) : Prop :=
  exists v, breaks v (so_header_value o) /\ t = so_header_name o ++ [58] ++ v ++ [10].

Section WithEnv.
Variable E : Env.
Notation C := (env_crypto E).
Notation idna := (env_idna E).

(** the algorithm for a key *)
Definition algorithm_for (key : SigningKey C) : SigningAlg :=
  match key with SkRsa _ => RsaSha256 | SkEd25519 _ => Ed25519Sha256 end.

(** a request of which only the duration was changed *)
Definition request_for (domain selector : str) (key : SigningKey C) : SignRequest E :=
  mkRequest E key (algorithm_for key) (mkCanon Relaxed Simple) domain Auto None NoLimit selector TsNow
    None false [] (mkFormat (lit "DKIM-Signature") 78 [9] None false).

(** what the signing program needs *)
Definition can_sign (P : Pkcs8 C) (files : str -> option (list byte)) (key_file domain selector : str)
    (stdin : list byte) (key : SigningKey C) (headers : list HeaderField) (body : list byte) : Prop :=
  (exists pem, files key_file = Some (as_bytes pem) /\ Forall is_scalar pem /\ from_pkcs8_pem P pem = Ok key)
  /\ domain_text idna domain true /\ domain_text idna selector false
  /\ message_input stdin headers body
  /\ exists f, In f headers /\ same_name (fst f) (lit "From").

(** Messages to which the signing program was applied some number of times, each time
    putting its output on top.  The keys are published in [zone]. *)
Inductive signed_times (zone : str -> IoResult (list (IoResult (list byte)))) (m : list byte) : nat -> list byte -> Prop :=
| st_none : signed_times zone m 0 m
| st_more : forall n m' P files order clock program key_file domain selector out err key headers body,
    signed_times zone m n m' ->
    (forall l, Permutation (order l) l) -> clock 0%nat < 2^64 ->
    Forall is_scalar domain -> Forall is_scalar selector ->
    dkimsign E P files order clock [program; key_file; domain; selector] m' = Val (mkExit 0 out err) -> out <> [] ->
    can_sign P files key_file domain selector m' key headers body ->
    key_published E (request_for domain selector key) program_config (fun p => zone (key_name p)) ->
    signed_times zone m (S n) (as_bytes out ++ m').

End WithEnv.

(** the text of results on standard output, numbered from [i] *)
Inductive listing (show : VerificationResult -> str) : N -> list VerificationResult -> str -> Prop :=
| li_nil : forall i, listing show i [] []
| li_cons : forall i r rs d t, decimal_text d i -> listing show (i + 1) rs t ->
    listing show i (r :: rs) ([10] ++ lit "SIGNATURE " ++ d ++ [10] ++ show r ++ [10] ++ t).
