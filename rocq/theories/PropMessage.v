(** Properties C63 and C64: signed messages as text, several signatures. *)

From Coq Require Import String List Permutation.
From Verif Require Import Base Utf8 Canon BodyHash Header Domain Signature KeyRecord Crypto TagList Format Sign Verify
  SpecText SpecCanon SpecHash SpecHeader SpecTag SpecDomain SpecSig SpecRecord SpecFormat SpecSign SpecOutput SpecVerify SpecEnd SpecMessage
  VerifyFacts EndProofs MessageProofs Lib Sample PropDomain PropSign PropOutput PropVerify PropEnd.
Import ListNotations.
Open Scope N_scope.

(** ** C63 *)

(** Formatted headers put on top of the text of a header, each with a line break,
    add the fields with the signatures, whichever line breaks are used. *)
Theorem C63_on_top : forall E outs s hs, idna_ok (env_idna E) -> Forall (signed_somehow E) outs ->
  header_fields_from_str s = Some hs ->
  header_fields_from_str (flat_map (fun o => format_header o ++ [13; 10]) outs ++ s) = Some (map signature_field outs ++ hs)
  /\ header_fields_from_str (flat_map (fun o => without_cr (format_header o) ++ [10]) outs ++ s) = Some (map signature_field outs ++ hs).
Proof. exact text_on_top. Qed.
Print Assumptions C63_on_top.

(** ** C64 *)

(** All of up to ten signatures, made in any way with requests of which nothing was
    changed and put on top of the message in any order, have success. *)
Theorem C64_several : forall E w headers outs chunks zone, idna_ok (env_idna E) -> crypto_nonempty (env_crypto E) ->
  world_ok w -> steady (w_resolver w) zone ->
  outs <> [] -> (length outs <= 10)%nat -> Forall (freshly_signed E headers (concat chunks) w zone) outs ->
  exists rs rest, verify_message E w (map signature_field outs ++ headers) default_config chunks = Val (Some (rs ++ rest))
    /\ length rs = length outs
    /\ forall k o, nth_error outs k = Some o -> exists r, nth_error rs k = Some r /\ vr_status r = Success /\ vr_index r = k
         /\ exists sig', vr_signature r = Some sig' /\ written_signature (env_idna E) default_format (so_signature o) sig'.
Proof. exact several_signatures. Qed.
Print Assumptions C64_several.

(** The same from text to text. *)
Theorem C64_text : forall E w text headers outs chunks zone, idna_ok (env_idna E) -> crypto_nonempty (env_crypto E) ->
  world_ok w -> steady (w_resolver w) zone ->
  outs <> [] -> (length outs <= 10)%nat -> header_fields_from_str text = Some headers ->
  Forall (freshly_signed E headers (concat chunks) w zone) outs ->
  exists headers' rs, header_fields_from_str (flat_map (fun o => format_header o ++ [13; 10]) outs ++ text) = Some headers'
    /\ verify_message E w headers' default_config chunks = Val (Some rs)
    /\ Forall (fun r => vr_status r = Success) (firstn (length outs) rs) /\ (length outs <= length rs)%nat.
Proof. exact signed_text. Qed.
Print Assumptions C64_text.

(** a message signed twice *)
Definition sample_text : str :=
  lit "Received: by x" ++ [10] ++ lit "From: me@example.com" ++ [13; 10] ++ lit "To: a," ++ [10; 32] ++ lit "b" ++ [10] ++ lit "Subject: =|;".
Definition second_request : SignRequest ascii_env :=
  request_new ascii_env (lit "example.COM") (lit "A-very.long-selector.name") RsaSha256 (SkRsa (C := sized_crypto) 7).
Definition second_output : SigningOutput :=
  match sign_message ascii_env (fun l => l) sample_headers [second_request] output_chunks (fun _ => 1000) with
  | Val (Ok [Ok o]) => o
  | _ => mkOutput [] [] (mkSig RsaSha256 [] [] (mkCanon Simple Simple) [] [] None None [] None None [] [])
  end.

Lemma sample_fresh : Forall (freshly_signed ascii_env sample_headers (concat output_chunks) (sample_world 20 good_records) (sample_zone good_records))
  [second_output; fresh_output; second_output].
Proof.
  assert (forall s, Forall is_scalar (lit s)) as L.
  { induction s as [|a s IH]; constructor; [|exact IH]. pose proof (Ascii.N_ascii_bounded a). unfold is_scalar. lia. }
  assert (forall d s o, let r := request_new ascii_env (lit d) (lit s) RsaSha256 (SkRsa (C := sized_crypto) 7) in
    signed_output ascii_env sample_headers output_chunks (fun _ => 1000) 0 r o ->
    key_published ascii_env r default_config (fun p => sample_zone good_records (key_name p)) ->
    freshly_signed ascii_env sample_headers (concat output_chunks) (sample_world 20 good_records) (sample_zone good_records) o) as F.
  { intros d s o r O K. exists (lit d), (lit s), RsaSha256, (SkRsa (C := sized_crypto) 7), output_chunks, (fun _ => 1000), 0%nat.
    split; [apply L|]. split; [apply L|]. split; [discriminate|]. split; [exact O|]. split; [reflexivity|]. split; [exact K|].
    split; [reflexivity|]. intros i. split; [vm_compute; discriminate|]. split; reflexivity. }
  assert (freshly_signed ascii_env sample_headers (concat output_chunks) (sample_world 20 good_records) (sample_zone good_records) second_output) as F2.
  { apply (F "example.COM"%string "A-very.long-selector.name"%string); [|apply sample_published; reflexivity].
    apply ascii_signed; try (vm_compute; auto; fail); exact sample_header_fields. }
  constructor; [exact F2|]. constructor; [|constructor; [exact F2|constructor]].
  apply (F "Example.com"%string "a-very.long-selector.name"%string); [|apply sample_published; reflexivity].
  apply ascii_signed; try (vm_compute; auto; fail); exact sample_header_fields.
Qed.

Example C64_example :
  header_fields_from_str sample_text = Some sample_headers
  /\ Forall (freshly_signed ascii_env sample_headers (concat output_chunks) (sample_world 20 good_records) (sample_zone good_records))
       [second_output; fresh_output; second_output]
  /\ match header_fields_from_str (flat_map (fun o => format_header o ++ [13; 10]) [second_output; fresh_output; second_output] ++ sample_text) with
     | Some hs => match verify_message ascii_env (sample_world 20 good_records) hs default_config output_chunks with
                  | Val (Some rs) => map vr_status rs = [Success; Success; Success]
                  | _ => False
                  end
     | None => False
     end.
Proof. split; [vm_compute; reflexivity|]. split; [exact sample_fresh|vm_compute; reflexivity]. Qed.
