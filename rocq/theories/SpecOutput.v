(** Specification of the properties of a signer's output: its form as a header
    field, and the signature it describes. *)

From Coq Require Import String List Permutation.
From Verif Require Import Base Utf8 Canon BodyHash Domain Signature Crypto Format Sign
  SpecText SpecCanon SpecHash SpecHeader SpecTag SpecDomain SpecSig SpecFormat SpecSign.

(** ** IDNA *)

(** Conversion as in UTS 46: insensitive to ASCII case, ASCII characters are kept
    up to case unless composed with others, nothing is left to be composed in the
    Unicode form, and the two forms of a name are convertible into each other. *)
Record idna_ok (idna : Idna) : Prop := mkIdnaOk {
  io_case : idna_ignores_case idna;
  io_empty : forall a, idna_to_ascii idna [] = Some a -> a = [];
  io_keeps : idna_keeps idna;
  io_composed : forall s a t, idna_to_ascii idna s = Some a -> idna_to_unicode idna s = (t, true) ->
    forall c, In c (lower t) -> c < 128 -> In c (lower a);
  io_forms : forall s a t, idna_to_ascii idna s = Some a -> idna_to_unicode idna s = (t, true) ->
    (Forall is_scalar s -> Forall is_scalar t)
    /\ idna_to_ascii idna a = Some a /\ snd (idna_to_unicode idna a) = true
    /\ idna_to_ascii idna t = Some a /\ snd (idna_to_unicode idna t) = true
}.

(** ** Form of the text *)

(** visible characters *)
Definition visible (c : char) : Prop := 33 <= c <= 126 \/ 128 <= c.

(** lines of visible characters and blanks, where continuation lines consist of
    an indentation as given and more text *)
Definition indented (Q : str -> Prop) (s : str) : Prop :=
  let text := Forall (fun c => visible c \/ c = 32 \/ c = 9) in
  exists first more, s = unlines first more /\ text first
    /\ Forall (fun l => exists w c r, l = w ++ c :: r /\ Q w /\ visible c /\ text r) more.

(** no line break inside *)
Definition one_line (v : str) : Prop := forall x y, v <> x ++ [13; 10] ++ y.

(** ** The signature described *)

(** [s'] is [s] with names in the form written *)
Definition written_signature (idna : Idna) (f : OutputFormat) (s s' : DkimSig) : Prop :=
  s_algorithm s' = s_algorithm s
  /\ s_signature_data s' = s_signature_data s
  /\ s_body_hash s' = s_body_hash s
  /\ s_canonicalization s' = s_canonicalization s
  /\ written_form idna (of_ascii_only f) (s_domain s) (s_domain s')
  /\ s_signed_headers s' = s_signed_headers s
  /\ match s_identity s, s_identity s' with
     | None, None => True
     | Some i, Some i' => id_local_part i' = id_local_part i
                          /\ written_form idna (of_ascii_only f) (id_domain i) (id_domain i')
     | _, _ => False
     end
  /\ s_body_length s' = s_body_length s
  /\ written_form idna (of_ascii_only f) (s_selector s) (s_selector s')
  /\ s_timestamp s' = s_timestamp s
  /\ s_expiration s' = s_expiration s
  /\ s_copied_headers s' = s_copied_headers s
  /\ Permutation (s_ext_tags s') (s_ext_tags s)
  /\ (of_tag_order f = None -> s_ext_tags s' = s_ext_tags s).

(** What a request must satisfy in addition for its signatures to be readable:
    the signer does not check this. *)
Record readable_request (E : Env) (r : SignRequest E) (now : N) : Prop := mkReadable {
  (* text is made of Unicode characters *)
  rr_scalar : Forall is_scalar (r_domain E r) /\ Forall is_scalar (r_selector E r)
    /\ forall i, r_identity E r = Some i -> Forall is_scalar (id_domain i);
  (* [Identity] is a plain struct, whose local part might be anything *)
  rr_local : forall i l, r_identity E r = Some i -> id_local_part i = Some l -> local_part l;
  (* this algorithm only exists in builds with feature pre-rfc8301 *)
  rr_alg : r_algorithm E r = RsaSha1 -> env_pre E = true;
  (* the signer lets through a tag named "q" *)
  rr_q : ~ In (lit "q") (map fst (r_ext_tags E r));
  (* x= is capped at the greatest number, hence t= should be less *)
  rr_time : forall t, time_of E r now = Some t -> t < 2^64 /\ (r_valid_duration E r <> None -> t < 2^64 - 1)
}.

(** names of copied header fields are written without encoding *)
Definition copied_names_safe (s : DkimSig) : Prop :=
  Forall (fun f => ~ In 61 (fst f) /\ ~ In 124 (fst f)) (s_copied_headers s).

(** digests and signatures are not empty *)
Definition crypto_nonempty (C : Crypto) : Prop :=
  (forall a d, hash_fn C a d <> [])
  /\ (forall a k d s, rsa_sign C a k d = Some s -> s <> [])
  /\ (forall k d, ed_sign C k d <> []).

(** ** The text that was signed *)

(** [s'] is [s] without the value [v] of its b= tag, and the whitespace around it *)
Definition signature_removed (s v s' : str) : Prop :=
  exists a f1 f2 f3 f4 c, ofws f1 /\ ofws f2 /\ ofws f3 /\ ofws f4
    /\ (a = [] \/ exists a', a = a' ++ [59]) /\ (c = [] \/ exists c', c = 59 :: c')
    /\ s = a ++ f1 ++ lit "b" ++ f2 ++ [61] ++ f3 ++ v ++ f4 ++ c
    /\ s' = a ++ f1 ++ lit "b" ++ f2 ++ [61] ++ c.

(** ** Line width *)

(** A line within the width, or with a semicolon just beyond it, or consisting of
    the header name, or of an indented piece of text that cannot be broken (maybe
    with a semicolon). *)
Inductive line_ok (width : nat) (indent name : str) (ps : list Piece) : str -> Prop :=
| lk_fits : forall l, (length l <= width)%nat -> line_ok width indent name ps l
| lk_semicolon : forall l, length l = width -> line_ok width indent name ps (l ++ [59])
| lk_name : line_ok width indent name ps (name ++ [58])
| lk_piece : forall p stop, In p ps -> stop = [] \/ stop = [59] ->
    line_ok width indent name ps (indent ++ p_text p ++ stop).

Definition no_line_break (l : str) : Prop := ~ In 13 l /\ ~ In 10 l.

(** the signature has the size announced by the key *)
Definition signature_sizes (C : Crypto) : Prop :=
  (forall a k d s, rsa_sign C a k d = Some s -> length s = rsa_sig_len C k)
  /\ (forall k d, length (ed_sign C k d) = 64%nat).

(** ** A signing result *)

(** the [j]th request [r] of a run gave the output [o] *)
Definition signed_output (E : Env) (headers : list HeaderField) (chunks : list (list byte)) (clock : nat -> N)
    (j : nat) (r : SignRequest E) (o : SigningOutput) : Prop :=
  crypto_typed E /\ header_fields headers /\
  exists order rs results, Forall (request_typed E) rs /\ (forall l, Permutation (order l) l)
    /\ sign_message E order headers rs chunks clock = Val (Ok results)
    /\ nth_error rs j = Some r /\ nth_error results j = Some (Ok o).

(** a signature without its signature data *)
Definition unsigned_part (s : DkimSig) : USig :=
  mkUSig (s_algorithm s) (s_body_hash s) (s_canonicalization s) (s_domain s) (s_signed_headers s) (s_identity s)
    (s_body_length s) (s_selector s) (s_timestamp s) (s_expiration s) (s_copied_headers s) (s_ext_tags s).
