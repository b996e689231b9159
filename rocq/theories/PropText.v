(** Properties C14-C18: text encodings. *)

From Coq Require Import String List.
From Verif Require Import Base Utf8 Canon Header Parse QP Base64 TagList SpecText SpecTag
  Utf8Proofs QPProofs QPDecode QPShape Base64Proofs Sample.
Import ListNotations.
Open Scope N_scope.

(** C14.  What the encoders and the decoder compute, completely. *)
Theorem C14_encode_exact : forall bytes special text,
  Forall is_byte bytes ->
  (qp_encode bytes special = text <-> qp_encoding special false bytes text)
  /\ (qp_encode_ascii_only bytes special = text <-> qp_encoding special true bytes text).
Proof.
  intros bytes special text Hb. split; split; intros H; subst;
    try (apply encode_spec; exact Hb);
    eapply qp_encoding_det; eauto using encode_spec.
Qed.
Print Assumptions C14_encode_exact.

Theorem C14_decode_exact : forall text,
  exists r, qp_decode text = Val r /\ forall bytes, r = Some bytes <-> qp_text text bytes.
Proof. exact qp_decode_spec. Qed.
Print Assumptions C14_decode_exact.

Theorem C14_decode_section_exact : forall text,
  exists r, decode_qp_section text = Val r /\ forall bytes, r = Some bytes <-> qp_section text bytes.
Proof. exact qp_section_spec. Qed.
Print Assumptions C14_decode_section_exact.

Theorem C14_round_trip : forall bytes special,
  Forall is_byte bytes ->
  qp_decode (qp_encode bytes special) = Val (Some bytes)
  /\ qp_decode (qp_encode_ascii_only bytes special) = Val (Some bytes).
Proof.
  intros bytes special Hb. split; eapply roundtrip_folded; eauto; apply inserted_refl.
Qed.
Print Assumptions C14_round_trip.

(** "ö|=" followed by an invalid byte *)
Example C14_example :
  qp_encode [195; 182; 124; 61; 32; 255; 97] (Some 124) = 246 :: lit "=7C=3D=20=FFa"
  /\ qp_encode_ascii_only [195; 182; 124; 61; 32; 255; 97] (Some 124) = lit "=C3=B6=7C=3D=20=FFa"
  /\ qp_decode (246 :: lit "=7C=3D=20=FFa") = Val (Some [195; 182; 124; 61; 32; 255; 97])
  /\ qp_decode (lit "a  =3 D") = Val (Some [97; 61])
  /\ qp_decode (lit "a=3G") = Val None
  /\ decode_qp_section (lit "a =3D") = Val (Some [97; 32; 61]).
Proof. repeat split; reflexivity. Qed.

(** C15 *)
Theorem C15_alphabet : forall bytes special c,
  Forall is_byte bytes ->
  In c (qp_encode bytes special) ->
  32 < c /\ c <> 127 /\ c <> 59
  /\ (special = Some c -> c = 61 \/ 48 <= c <= 57 \/ 65 <= c <= 70).
Proof.
  intros bytes special c Hb Hc.
  destruct (encoding_chars _ _ _ _ Hb (encode_spec special false bytes Hb) c Hc) as [X|[_ [X [Y _]]]].
  - unfold hex_or_eq in X. repeat split; Lia.lia.
  - unfold dkim_safe in X. repeat split; try Lia.lia. intros Z. contradiction.
Qed.
Print Assumptions C15_alphabet.

Theorem C15_alphabet_ascii_only : forall bytes special c,
  Forall is_byte bytes ->
  In c (qp_encode_ascii_only bytes special) ->
  32 < c < 127 /\ c <> 59
  /\ (special = Some c -> c = 61 \/ 48 <= c <= 57 \/ 65 <= c <= 70).
Proof.
  intros bytes special c Hb Hc.
  destruct (encoding_chars _ _ _ _ Hb (encode_spec special true bytes Hb) c Hc) as [X|[_ [X [Y Z]]]].
  - unfold hex_or_eq in X. repeat split; Lia.lia.
  - specialize (Z eq_refl). unfold dkim_safe in X. repeat split; try Lia.lia. intros W. contradiction.
Qed.
Print Assumptions C15_alphabet_ascii_only.

(** An equals sign is always the start of an escape. *)
Theorem C15_escapes : forall bytes special a b,
  Forall is_byte bytes ->
  qp_encode bytes special = a ++ 61 :: b \/ qp_encode_ascii_only bytes special = a ++ 61 :: b ->
  exists h l rest, b = h :: l :: rest
    /\ (48 <= h <= 57 \/ 65 <= h <= 70) /\ (48 <= l <= 57 \/ 65 <= l <= 70).
Proof.
  intros bytes special a b Hb [E|E].
  - exact (encoding_equals _ _ _ _ (encode_spec special false bytes Hb) Hb a b E).
  - exact (encoding_equals _ _ _ _ (encode_spec special true bytes Hb) Hb a b E).
Qed.
Print Assumptions C15_escapes.

Theorem C15_tag_value : forall bytes special,
  Forall is_byte bytes ->
  (qp_encode bytes special = [] \/ tag_value_text (qp_encode bytes special))
  /\ (qp_encode_ascii_only bytes special = [] \/ tag_value_text (qp_encode_ascii_only bytes special)).
Proof.
  intros bytes special Hb. split; (eapply encoding_value; [apply encode_spec; exact Hb|exact Hb]).
Qed.
Print Assumptions C15_tag_value.

Example C15_example : In 61 (qp_encode [124; 10] (Some 124)) /\ ~ In 124 (qp_encode [124; 10] (Some 124)).
Proof. split; [simpl; auto|]. simpl. intros H. repeat (destruct H as [H|H]; [discriminate|]). exact H. Qed.

(** C16 *)
Theorem C16_folding_tolerated : forall bytes special text,
  Forall is_byte bytes ->
  inserted ofws (qp_encode bytes special) text \/ inserted ofws (qp_encode_ascii_only bytes special) text ->
  qp_decode text = Val (Some bytes).
Proof. intros bytes special text Hb [H|H]; eapply roundtrip_folded; eauto. Qed.
Print Assumptions C16_folding_tolerated.

(** The folding whitespace scanner takes the longest match. *)
Theorem C16_fws_longest_match : forall s,
  match strip_fws s with
  | Some rest => exists f, fws f /\ s = f ++ rest
      /\ forall f' rest', fws f' -> s = f' ++ rest' -> (length f' <= length f)%nat
  | None => forall f' rest', fws f' -> s <> f' ++ rest'
  end.
Proof. exact strip_fws_longest. Qed.
Print Assumptions C16_fws_longest_match.

Example C16_example :
  let folded := lit " =" ++ [13; 10; 9] ++ lit "3 D" ++ [32; 13; 10; 32; 9] ++ lit "a" in
  inserted ofws (qp_encode [61; 97] None) folded /\ qp_decode folded = Val (Some [61; 97]).
Proof.
  split; [|reflexivity].
  assert (forall w, w = [32] \/ w = [9] -> ofws w) as W.
  { intros w H. right. exists w. destruct H as [-> | ->];
      (split; [apply wsps_forallb; reflexivity|split; [discriminate|left; reflexivity]]). }
  apply (ins_cons _ [32]); [apply W; auto|].
  apply (ins_cons _ [13; 10; 9]).
  { right. exists [9]. split; [apply wsps_forallb; reflexivity|]. split; [discriminate|]. right. exists [].
    split; [constructor|reflexivity]. }
  apply (ins_cons _ [32]); [apply W; auto|].
  apply (ins_cons _ [32; 13; 10; 32; 9]).
  { right. exists [32; 9]. split; [apply wsps_forallb; reflexivity|]. split; [discriminate|]. right. exists [32].
    split; [apply wsps_forallb; reflexivity|reflexivity]. }
  constructor. left. reflexivity.
Qed.

(** C17 *)
Theorem C17_encode_exact : forall bytes text,
  Forall is_byte bytes -> (encode_base64 bytes = text <-> base64 bytes text).
Proof.
  intros bytes text Hb. split; intros H; subst.
  - apply encode_base64_spec. exact Hb.
  - eapply base64_det; eauto using encode_base64_spec.
Qed.
Print Assumptions C17_encode_exact.

Theorem C17_parse_exact : forall text bytes,
  parse_base64_value text = Some bytes <->
  Forall is_byte bytes /\ exists s, base64 bytes s /\ inserted (Forall blank) s text.
Proof. exact parse_base64_iff. Qed.
Print Assumptions C17_parse_exact.

Theorem C17_round_trip : forall bytes text,
  Forall is_byte bytes ->
  inserted (Forall blank) (encode_base64 bytes) text ->
  parse_base64_value text = Some bytes.
Proof.
  intros bytes text Hb H. apply parse_base64_iff. split; [exact Hb|].
  exists (encode_base64 bytes). split; [apply encode_base64_spec; exact Hb|exact H].
Qed.
Print Assumptions C17_round_trip.

Theorem C17_injective : forall bytes1 bytes2,
  Forall is_byte bytes1 -> Forall is_byte bytes2 ->
  encode_base64 bytes1 = encode_base64 bytes2 -> bytes1 = bytes2.
Proof.
  intros b1 b2 H1 H2 E. apply decode_encode_base64 in H1, H2. rewrite E in H1. congruence.
Qed.
Print Assumptions C17_injective.

Example C17_example :
  encode_base64 [222; 173; 190; 239] = lit "3q2+7w=="
  /\ parse_base64_value (lit "3q 2+" ++ [13; 10; 9] ++ lit "7w =" ++ [32; 61; 10]) = Some [222; 173; 190; 239]
  /\ parse_base64_value (lit "3q2+7x==") = None.
Proof. repeat split; reflexivity. Qed.

(** C18 *)
Theorem C18_next_chunk : forall bytes,
  match next_utf8_chunk bytes with
  | Some chunk => chunk <> [] /\ exists rest, utf8_split bytes chunk rest
  | None => no_char_at bytes
  end.
Proof. exact next_chunk_spec. Qed.
Print Assumptions C18_next_chunk.

(** The segmentation is unique, so the above determines the chunk. *)
Theorem C18_split_unique : forall bytes s1 rest1 s2 rest2,
  utf8_split bytes s1 rest1 -> utf8_split bytes s2 rest2 -> s1 = s2 /\ rest1 = rest2.
Proof.
  intros bytes s1 r1 s2 r2 H1 H2. apply utf8_prefix_spec in H1, H2. rewrite H1 in H2.
  injection H2 as <- <-. auto.
Qed.
Print Assumptions C18_split_unique.

Theorem C18_from_utf8_exact : forall bytes s,
  from_utf8 bytes = Some s <-> Forall is_scalar s /\ as_bytes s = bytes.
Proof. exact from_utf8_spec. Qed.
Print Assumptions C18_from_utf8_exact.

Example C18_example :
  next_utf8_chunk [97; 226; 130; 172; 195; 40] = Some [97; 8364]
  /\ next_utf8_chunk [195; 40] = None
  /\ from_utf8 [240; 159; 152; 128] = Some [128512]
  /\ from_utf8 [237; 160; 128] = None.
Proof. repeat split; reflexivity. Qed.
