(** Specification of messages as text: signatures are put on top. *)

From Coq Require Import String List.
From Verif Require Import Base Utf8 Canon BodyHash Domain Signature KeyRecord Crypto Format Sign Verify
  SpecText SpecCanon SpecHash SpecHeader SpecTag SpecDomain SpecSig SpecRecord SpecFormat SpecSign SpecOutput SpecVerify SpecEnd.

Section WithEnv.
Variable E : Env.

(** something that was signed; all text is made of Unicode characters *)
Definition signed_somehow (o : SigningOutput) : Prop :=
  exists headers chunks clock j r, signed_output E headers chunks clock j r o
    /\ Forall is_scalar (r_domain E r) /\ Forall is_scalar (r_selector E r)
    /\ (forall i, r_identity E r = Some i -> Forall is_scalar (id_domain i))
    /\ Forall (Forall is_scalar) (map snd (r_ext_tags E r)).

(** The message was signed with a request of which nothing was changed, at a time
    that suits all times of verification, and the key is published. *)
Definition freshly_signed (headers : list HeaderField) (body : list byte) (w : World)
    (zone : str -> IoResult (list (IoResult (list byte)))) (o : SigningOutput) : Prop :=
  exists d s alg key chunks clock j,
    let r := request_new E d s alg key in
    Forall is_scalar d /\ Forall is_scalar s /\ alg <> RsaSha1
    /\ signed_output E headers chunks clock j r o /\ concat chunks = body
    /\ key_published E r default_config (fun p => zone (key_name p))
    /\ clock j < 2^64 - 1
    /\ forall i, let now := w_clock w i in clock j <= now + 300 /\ now < clock j + 432000 + 300 /\ now < 2^64 - 1.
End WithEnv.
