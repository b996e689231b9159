(** Properties C87, C40: the width of lines, with line breaks in additional tags. *)

From Coq Require Import String List Permutation.
From Verif Require Import Base Utf8 Canon BodyHash Header Domain Signature Crypto TagList Format Sign Verify
  SpecText SpecCanon SpecHash SpecHeader SpecTag SpecDomain SpecSig SpecFormat SpecSign SpecOutput SpecWidth
  DomainProofs SignProofs HeaderProofs OutputProofs WidthProofs WidthExact Lib Sample
  PropDomain PropSign PropOutput.
Import ListNotations.
Open Scope N_scope.

(** ** C87 *)

(** Lines, including the header name, within the width, but for a semicolon after
    the last character of bh=, b=, z=; and for the lines of text that cannot be
    broken. *)
Theorem C87_lines : forall E headers chunks clock j r o, idna_ok (env_idna E) -> signature_sizes (env_crypto E) ->
  signed_output E headers chunks clock j r o ->
  let u := unsigned_part (so_signature o) in let f := r_format E r in
  breaks_after_b u f ->
  exists b64 ps first more,
    base64 (s_signature_data (so_signature o)) b64
    /\ tags_pieces (env_idna E) u (of_ascii_only f) b64 (tag_names u f) ps
    /\ so_header_name o ++ [58] ++ so_header_value o = unlines first more
    /\ Forall (fun l => no_line_break l /\ folded_ok (of_line_width f) (of_indentation f) (so_header_name o) ps l) (first :: more).
Proof.
  intros E headers chunks clock j r o IO Z H u f B. destruct (signed_output_of _ _ _ _ _ _ _ H) as (pre & post & n & b64 & O).
  destruct (output_folded E _ _ _ _ _ _ _ _ _ _ _ IO Z O B) as (ps & first & more & X). exists b64, ps, first, more.
  split; [apply (oo_b64 _ _ _ _ _ _ _ _ _ _ _ _ O)|exact X].
Qed.
Print Assumptions C87_lines.

(** In the default order of tags, there is no condition on additional tags. *)
Theorem C87_default_order : forall E headers chunks clock j r o, idna_ok (env_idna E) -> signature_sizes (env_crypto E) ->
  signed_output E headers chunks clock j r o -> of_tag_order (r_format E r) = None ->
  let u := unsigned_part (so_signature o) in let f := r_format E r in
  exists b64 ps first more,
    base64 (s_signature_data (so_signature o)) b64
    /\ tags_pieces (env_idna E) u (of_ascii_only f) b64 (tag_names u f) ps
    /\ so_header_name o ++ [58] ++ so_header_value o = unlines first more
    /\ Forall (fun l => no_line_break l /\ folded_ok (of_line_width f) (of_indentation f) (so_header_name o) ps l) (first :: more).
Proof.
  intros E headers chunks clock j r o IO Z H D u f. apply (C87_lines E headers chunks clock j r o IO Z H).
  destruct (signed_output_of _ _ _ _ _ _ _ H) as (pre & post & n & b64 & O). apply (default_after_b E); [exact D|].
  apply (oo_sound _ _ _ _ _ _ _ _ _ _ _ _ O).
Qed.
Print Assumptions C87_default_order.

(** A tag of three lines, one of which is too long. *)
Definition three_lines : str := repeat 97 100 ++ [13; 10; 32] ++ lit "b" ++ [13; 10; 9; 9] ++ lit "c d".
Definition three_request : SignRequest ascii_env := odd_request TsNow [(lit "y", three_lines); (lit "z1", lit "1")].

Example C87_example :
  signed_output ascii_env sample_headers output_chunks (fun _ => 1000) 0 three_request (odd_output three_request sample_headers)
  /\ of_tag_order (r_format ascii_env three_request) = None
  /\ map (fun l => length l) (split_on 10 (lit "DKIM-Signature:" ++ so_header_value (odd_output three_request sample_headers)))
     = [76; 79; 77; 23; 104; 3; 7; 5]%nat.
Proof.
  split; [|split; [reflexivity|vm_compute; reflexivity]].
  apply ascii_signed; try (vm_compute; auto; fail). exact sample_header_fields.
Qed.

(** ** C40 *)

(** With a line break in the value of a tag that is written before b=, lines may be
    much too long (here 124 characters instead of 78), though they consist of
    several tags. *)
Definition early_request : SignRequest ascii_env :=
  mkRequest ascii_env (SkRsa (C := sized_crypto) 7) RsaSha256 (mkCanon Simple Simple) (lit "example.com") Auto
    None NoLimit (lit "sel") TsNow None false [(lit "y", repeat 97 10 ++ [13; 10; 32] ++ lit "b")]
    (mkFormat (lit "Dkim-Signature") 78 (lit " ") (Some (fun l => rev l)) true).
Definition early_output : SigningOutput := odd_output early_request sample_headers.

Theorem C40_early_break_refuted : ~ forall E headers chunks clock j r o, idna_ok (env_idna E) -> signature_sizes (env_crypto E) ->
  signed_output E headers chunks clock j r o ->
  let f := r_format E r in
  exists first more,
    so_header_name o ++ [58] ++ so_header_value o = unlines first more
    /\ Forall (fun l => no_line_break l /\
         ((length l <= of_line_width f + 45)%nat
          \/ exists name value, In (name, value) (r_ext_tags E r) /\ exists a b, value = a ++ l ++ b)) (first :: more).
Proof.
  intros H. destruct (H ascii_env sample_headers output_chunks (fun _ => 1000) 0%nat early_request
    early_output ascii_idna_ok sized_sizes) as (f & m & E & M).
  - apply ascii_signed; try (vm_compute; auto; fail); [exact sample_header_fields|].
    intros names. symmetry. apply Permutation_rev.
  - assert (split_crlf (so_header_name early_output ++ [58] ++ so_header_value early_output) = f :: m) as S.
    { rewrite E. inversion M as [|? ? [[C _] _] M']; subst. apply split_crlf_complete.
      - exact C.
      - eapply Forall_impl; [|exact M']. intros l [[C' _] _]. exact C'. }
    rewrite <- S in M. clear S E. rewrite Forall_forall in M.
    assert (exists l, In l (split_crlf (so_header_name early_output ++ [58] ++ so_header_value early_output)) /\ length l = 124%nat) as (l & I & L).
    { exists (nth 1 (split_crlf (so_header_name early_output ++ [58] ++ so_header_value early_output)) []).
      split; [|vm_compute; reflexivity]. apply nth_In. vm_compute. lia. }
    destruct (M l I) as [_ [X|(name & value & X & a & b & Y)]].
    + rewrite L in X. cbn [early_request r_format of_line_width] in X. lia.
    + destruct X as [X|[]]. injection X as _ <-. apply (f_equal (@length N)) in Y. rewrite !app_length, L in Y. cbn in Y. lia.
Qed.
Print Assumptions C40_early_break_refuted.
