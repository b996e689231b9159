(** Property C100: answers of the resolver. *)

From Coq Require Import String List Permutation.
From Verif Require Import Base Utf8 Canon BodyHash Header TagList Domain Signature KeyRecord Crypto Format Sign Verify
  SpecText SpecCanon SpecHash SpecHeader SpecTag SpecDomain SpecSig SpecRecord SpecSign SpecVerify SpecSettle
  HeaderProofs VerifyFacts SettleProofs Lib Sample PropDomain PropSign PropOutput PropVerify.
Import ListNotations.
Open Scope N_scope.

(** ** C100 *)

(** Whatever a resolver answers, however it changes from one lookup to the next: the results
    are those with a resolver that always says what this one said. *)
Theorem C100_settled : forall E w headers config, world_ok w -> header_fields headers -> names_apart E headers config (w_clock w) ->
  exists zone, said w zone
    /\ forall chunks, verify_message E (settled w zone) headers config chunks = verify_message E w headers config chunks.
Proof. exact settle. Qed.
Print Assumptions C100_settled.

(** So it is for a message with one signature. *)
Theorem C100_single : forall E w headers config, world_ok w -> header_fields headers -> (length (examined config headers) <= 1)%nat ->
  exists zone, said w zone
    /\ forall chunks, verify_message E (settled w zone) headers config chunks = verify_message E w headers config chunks.
Proof. intros E w headers config W Hh Le. apply settle; [exact W|exact Hh|]. apply single_apart. exact Le. Qed.
Print Assumptions C100_single.

(** Only the names that signatures need matter. *)
Theorem C100_other_names : forall E w zone zone' headers config chunks, world_ok w -> header_fields headers ->
  (forall p, pair_needed E headers config (w_clock w) p -> zone (key_name p) = zone' (key_name p)) ->
  verify_message E (settled w zone) headers config chunks = verify_message E (settled w zone') headers config chunks.
Proof. exact settled_ext. Qed.
Print Assumptions C100_other_names.

(** ** Names that are not apart *)

(** The key records for selector [a] of [b._domainkey.example.com], and for selector
    [a._domainkey.b] of [example.com], have the same name; it is looked up twice. *)
Definition text_of (d s : string) : list byte :=
  lit " v=1; a=rsa-sha256; h=From; bh=YQ==; b=YQ==; d=" ++ lit d ++ lit "; s=" ++ lit s.
Definition twin_headers : list HeaderField :=
  (lit "DKIM-Signature", text_of "b._domainkey.example.com" "a")
  :: (lit "DKIM-Signature", text_of "example.com" "a._domainkey.b") :: sample_headers.
Definition changing_world : World :=
  mkWorld (mkResolver (fun n _ => match n with O => Err NotFound | _ => Ok [Ok (lit "junk")] end) (fun _ _ => 1)) (fun _ => 1003) (fun l => l) (fun l => l).
Definition twin_name : str := lit "a._domainkey.b._domainkey.example.com.".

Lemma twin_fields : header_fields twin_headers.
Proof.
  assert (forall v, field_body_new v = Some v -> forallb (fun b => b <? 256) v = true ->
    field_name (lit "DKIM-Signature") /\ field_body v /\ Forall is_byte v) as X.
  { intros v H2 H3. assert (field_name_new (lit "DKIM-Signature") = Some (lit "DKIM-Signature")) as H1 by (vm_compute; reflexivity).
    apply field_name_new_spec in H1. apply field_body_new_spec in H2. split; [tauto|]. split; [tauto|].
    apply Forall_forall. intros b Hb. rewrite forallb_forall in H3. specialize (H3 b Hb). unfold is_byte. lia. }
  constructor; [apply X; vm_compute; reflexivity|]. constructor; [apply X; vm_compute; reflexivity|]. exact sample_header_fields.
Qed.

Lemma changing_ok : world_ok changing_world.
Proof. split; intros l; apply Permutation_refl. Qed.

Lemma twin_names : forall p, pair_needed ascii_env twin_headers default_config (fun _ => 1003) p -> key_name p = twin_name.
Proof.
  intros p P. destruct (verify_header ascii_env changing_world twin_headers default_config) as [[[[v log] t]|]|] eqn:V; [|vm_compute in V; discriminate V..].
  pose proof (needed_logged ascii_env changing_world twin_headers default_config v log t p changing_ok twin_fields V P) as I.
  vm_compute in V. injection V as _ <- _. cbn [map fst In] in I. destruct I as [<-|[<-|[]]]; vm_compute; reflexivity.
Qed.

Theorem C100_settled_refuted : ~ forall E w headers config chunks, world_ok w -> header_fields headers ->
  exists zone, said w zone /\ verify_message E (settled w zone) headers config chunks = verify_message E w headers config chunks.
Proof.
  intros H. destruct (H ascii_env changing_world twin_headers default_config [] changing_ok twin_fields) as (zone & Sd & M).
  destruct (Sd twin_name) as (n & Z).
  rewrite (settled_ext ascii_env changing_world zone (fun _ => zone twin_name) twin_headers default_config [] changing_ok twin_fields) in M
    by (intros p P; rewrite (twin_names p P); reflexivity).
  rewrite Z in M. clear - M. destruct n as [|n]; vm_compute in M; discriminate M.
Qed.
Print Assumptions C100_settled_refuted.

(** A resolver that knows a name only after the first lookup.  Two signatures with the same
    domain and selector are told the same; two where these merely give the same name are not. *)
Example C100_example :
  world_ok changing_world /\ header_fields twin_headers /\ header_fields signed_headers
  /\ match verify_message ascii_env changing_world twin_headers default_config [] with
     | Val (Some rs) => map vr_status rs = [Failure NoKeyFound; Failure (KeyRecordFormat KTagListFormat)]
     | _ => False
     end
  /\ names_apart ascii_env signed_headers default_config (fun _ => 1003)
  /\ match verify_message ascii_env changing_world signed_headers default_config [] with
     | Val (Some rs) => map vr_status (tl rs) = [Failure NoKeyFound; Failure NoKeyFound]
     | _ => False
     end.
Proof.
  split; [exact changing_ok|]. split; [exact twin_fields|]. split; [exact signed_header_fields|]. split; [vm_compute; reflexivity|].
  split; [|vm_compute; reflexivity]. intros p p' P P' _.
  destruct (verify_header ascii_env changing_world signed_headers default_config) as [[[[v log] t]|]|] eqn:V; [|vm_compute in V; discriminate V..].
  pose proof (needed_logged ascii_env changing_world signed_headers default_config v log t p changing_ok signed_header_fields V P) as I.
  pose proof (needed_logged ascii_env changing_world signed_headers default_config v log t p' changing_ok signed_header_fields V P') as I'.
  vm_compute in V. injection V as _ <- _. destruct I as [<-|[]], I' as [<-|[]]. reflexivity.
Qed.
