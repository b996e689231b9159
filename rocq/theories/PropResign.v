(** Property C104: what signing disregards in a message. *)

From Coq Require Import String List Permutation.
From Verif Require Import Base Utf8 Canon BodyHash Header Domain Signature Crypto Format Sign
  SpecText SpecCanon SpecHash SpecHeader SpecTag SpecDomain SpecSig SpecFormat SpecSign SpecTransit SpecResign
  SignProofs ResignProofs Lib Sample PropSign PropTransit.
Import ListNotations.
Open Scope N_scope.

(** Messages that are the same to each request are signed the same: the same
    results, with the same header texts, or the same error. *)
Theorem C104_same : forall E order order' headers headers' rs chunks chunks' clock, crypto_typed E ->
  Forall (request_typed E) rs -> header_fields headers -> header_fields headers' ->
  (forall l, Permutation (order l) l) -> (forall l, Permutation (order' l) l) ->
  ((exists f, In f headers /\ same_name (fst f) (lit "From")) <-> (exists f, In f headers' /\ same_name (fst f) (lit "From"))) ->
  Forall (fun r => alike_headers E r headers headers' /\ alike_body E r (concat chunks) (concat chunks')) rs ->
  sign_message E order headers rs chunks clock = sign_message E order' headers' rs chunks' clock.
Proof. exact signing_alike. Qed.
Print Assumptions C104_same.

(** In particular, when no fields are copied to the signature, fields may change in
    any way that the canonicalization disregards, except for the case of names. *)
Theorem C104_fields : forall E order order' headers headers' r chunks chunks' clock, crypto_typed E ->
  request_typed E r -> header_fields headers -> header_fields headers' ->
  (forall l, Permutation (order l) l) -> (forall l, Permutation (order' l) l) -> r_copy_headers E r = false ->
  Forall2 (fun f f' => fst f = fst f' /\ same_field (c_header (r_canonicalization E r)) f f') headers headers' ->
  alike_body E r (concat chunks) (concat chunks') ->
  sign_message E order headers [r] chunks clock = sign_message E order' headers' [r] chunks' clock.
Proof. exact signing_fields_alike. Qed.
Print Assumptions C104_fields.

(** ** A sample *)

Definition plain_request (copy : bool) : SignRequest toy_env :=
  mkRequest toy_env (SkRsa (C := toy_crypto) 7) RsaSha256 (mkCanon Relaxed Relaxed) (lit "example.com") Auto
    None NoLimit (lit "sel") (TsExact 5) None copy [] default_format.

(** [sample_headers] with other whitespace *)
Definition respaced_headers : list HeaderField :=
  [(lit "Received", lit "by  x"); (lit "From", lit "  me@example.com "); (lit "To", lit "a, b"); (lit "Subject", lit "=|;")].
(** with fields added, changed and moved that are not signed *)
Definition other_headers : list HeaderField :=
  [(lit "X-Id", lit " 9"); (lit "From", lit "  me@example.com "); (lit "To", lit "a, b"); (lit "Received", lit " by y"); (lit "Subject", lit "=|;")].
(** with another case *)
Definition recased_headers : list HeaderField :=
  [(lit "Received", lit " by x"); (lit "FROM", lit " me@example.com"); (lit "To", lit " a," ++ [13; 10; 32] ++ lit "b");
   (lit "Subject", lit " =|;")].

Lemma plain_typed : forall copy, request_typed toy_env (plain_request copy).
Proof. intros copy. apply toy_request_typed; vm_compute; auto. Qed.

Definition signed_value (headers : list HeaderField) (r : SignRequest toy_env) (body : list byte) : option str :=
  match sign_message toy_env (@rev _) headers [r] [body] (fun _ => 1000) with
  | Val (Ok [Ok o]) => Some (so_header_value o)
  | _ => None
  end.

Example C104_fields_example :
  request_typed toy_env (plain_request false) /\ header_fields sample_headers /\ header_fields respaced_headers
  /\ Forall2 (fun f f' => fst f = fst f' /\ same_field Relaxed f f') sample_headers respaced_headers
  /\ alike_body toy_env (plain_request false) (lit "Hi all" ++ [13; 10]) (lit "Hi  all" ++ [13; 10])
  /\ (exists t, signed_value sample_headers (plain_request false) (lit "Hi all" ++ [13; 10]) = Some t
        /\ signed_value respaced_headers (plain_request false) (lit "Hi  all" ++ [13; 10]) = Some t)
  (* another value, another text *)
  /\ signed_value sample_headers (plain_request false) (lit "Hi all" ++ [13; 10])
     <> signed_value (firstn 3 sample_headers ++ [(lit "Subject", lit " other")]) (plain_request false) (lit "Hi all" ++ [13; 10]).
Proof.
  split; [apply plain_typed|]. split; [exact sample_header_fields|]. split; [apply headers_checked; vm_compute; reflexivity|].
  split; [repeat constructor|]. split; [apply (sb_blanks Relaxed (lit "Hi") [32] [32; 32] (lit "all" ++ [13; 10])); (reflexivity || discriminate)|].
  split; [eexists; split; vm_compute; reflexivity|]. vm_compute. discriminate.
Qed.

Example C104_same_example :
  header_fields other_headers /\ alike_headers toy_env (plain_request false) sample_headers other_headers
  /\ (exists t, signed_value sample_headers (plain_request false) (lit "Hi") = Some t
        /\ signed_value other_headers (plain_request false) (lit "Hi") = Some t).
Proof.
  split; [apply headers_checked; vm_compute; reflexivity|]. split; [|eexists; split; vm_compute; reflexivity].
  exists [lit "Subject"; lit "To"; lit "From"], [].
  assert (forall headers fs, selected (fun f : HeaderField => In (lower (fst f)) signed_by_default) headers fs ->
    signed_names toy_env (plain_request false) headers (rev (map fst fs))) as N by (intros; apply sn_auto; [reflexivity|assumption]).
  assert (forall h, selected (fun f : HeaderField => In (lower (fst f)) signed_by_default) h (filter (fun f => mem_str (lower (fst f)) signed_by_default) h)) as S.
  { intros h. apply selected_filter. intros f _. apply mem_str_In. }
  split; [exact (N _ _ (S sample_headers))|]. split; [exact (N _ _ (S other_headers))|]. split; [|split; reflexivity].
  intros n [<-|[<-|[<-|[]]]]; vm_compute; repeat constructor.
Qed.

(** When fields are copied, the copies show the difference. *)
Theorem C104_copied_refuted : ~ (forall E order headers headers' r chunks clock, crypto_typed E ->
  request_typed E r -> header_fields headers -> header_fields headers' -> (forall l, Permutation (order l) l) ->
  Forall2 (fun f f' => fst f = fst f' /\ same_field (c_header (r_canonicalization E r)) f f') headers headers' ->
  sign_message E order headers [r] chunks clock = sign_message E order headers' [r] chunks clock).
Proof.
  intros H. specialize (H toy_env (@rev _) sample_headers respaced_headers (plain_request true) [lit "Hi"] (fun _ => 1000) toy_typed
    (plain_typed true) sample_header_fields).
  assert (header_fields respaced_headers) as R by (apply headers_checked; vm_compute; reflexivity).
  specialize (H R (fun l => Permutation_sym (Permutation_rev l)) ltac:(repeat constructor)). vm_compute in H. discriminate H.
Qed.
Print Assumptions C104_copied_refuted.

(** When names are selected from the message, they are written as they are there. *)
Theorem C104_case_refuted : ~ (forall E order headers headers' r chunks clock, crypto_typed E ->
  request_typed E r -> header_fields headers -> header_fields headers' -> (forall l, Permutation (order l) l) -> r_copy_headers E r = false ->
  Forall2 (same_field (c_header (r_canonicalization E r))) headers headers' ->
  sign_message E order headers [r] chunks clock = sign_message E order headers' [r] chunks clock).
Proof.
  intros H. specialize (H toy_env (@rev _) sample_headers recased_headers (plain_request false) [lit "Hi"] (fun _ => 1000) toy_typed
    (plain_typed false) sample_header_fields).
  assert (header_fields recased_headers) as R by (apply headers_checked; vm_compute; reflexivity).
  specialize (H R (fun l => Permutation_sym (Permutation_rev l)) eq_refl ltac:(repeat constructor)). vm_compute in H. discriminate H.
Qed.
Print Assumptions C104_case_refuted.
