(** Tests of the model, not properties: the assertions of the code ([unreachable!],
    [expect], [assert!] and the like) are in the model where they are in the code.
    That no run of the library comes to any of them is what C04 and others say, so
    these states are made up. *)

From Coq Require Import String List.
From Verif Require Import Base Utf8 QP Canon BodyHash Header Domain Signature KeyRecord Crypto TagList Format Sign Verify Dev Usize
  Lib Sample PropSign.
Import ListNotations.
Open Scope N_scope.

(** src/canonicalize.rs: states of relaxed processing in simple processing *)
Example guard_canon : forall blank n b,
  step_simple (mkBodyCanon Simple SWsp blank n) b = Panic /\ step_simple (mkBodyCanon Simple SWspCr blank n) b = Panic
  /\ bc_finish (mkBodyCanon Simple SWsp blank n) = Panic /\ bc_finish (mkBodyCanon Simple SWspCr blank n) = Panic.
Proof. repeat split. Qed.

(** src/crypto/hash.rs: more written than allowed *)
Example guard_counting : ch_update (mkCH Sha256 [1; 2] (Some 1) 2) [3] = Panic.
Proof. reflexivity. Qed.

(** src/message_hash.rs: a canonicalizer finished twice *)
Example guard_finish : finish_chunk (mkFin None None) = Panic.
Proof. reflexivity. Qed.

(** src/quoted_printable.rs: not a hexadecimal digit *)
Example guard_hex : map hex_to_u8 [47; 58; 64; 71; 96; 103] = repeat Panic 6.
Proof. reflexivity. Qed.

(** src/signature.rs: the name has no byte boundary where it is to be split *)
Section Subdomain.
Let idna : Idna := mkIdna (fun s => Some s) (fun s => (s, true)).
Example guard_subdomain :
  eq_or_subdomain_of idna [246] [98] = Panic /\ eq_or_subdomain_of idna [46; 98] [98] = Val true
  /\ eq_or_subdomain_of idna [97; 98] [98] = Val false.
Proof. repeat split; reflexivity. Qed.
End Subdomain.

(** src/signer/format.rs: tags without a value *)
Section Format.
Let idna : Idna := mkIdna (fun s => Some s) (fun s => (s, true)).
Let bare : USig := mkUSig RsaSha256 [] (mkCanon Simple Simple) (lit "d") [] None None (lit "s") None None [] [].
Example guard_format : forall fmt cur ins n,
  format_tag_h cur fmt [] = Panic /\ format_tag_z cur fmt [] = Panic
  /\ Forall (fun t => format_one idna bare n fmt cur ins t = Panic) (map lit ["h"; "i"; "l"; "t"; "x"; "z"; "foo"]%string).
Proof. intros. split; [reflexivity|]. split; [reflexivity|]. repeat constructor. Qed.
End Format.

Example guard_insert :
  insert_signature_data [97; 246; 98] 2 (lit "DKIM-Signature") [1; 2; 3] 78 [32] = Panic
  /\ insert_signature_data [97; 246; 98] 9 (lit "DKIM-Signature") [1; 2; 3] 78 [32] = Panic
  /\ insert_signature_data [97; 246; 98] 3 (lit "DKIM-Signature") [1; 2; 3] 78 [32] = Val ([97; 246] ++ lit "AQID" ++ [98]).
Proof. repeat split; reflexivity. Qed.

(** src/signer/sign.rs: no hash, a truncated one, no From, a semicolon, the wrong key *)
Definition guard_request key length names : SignRequest toy_env :=
  mkRequest toy_env key RsaSha256 (mkCanon Simple Simple) (lit "example.com") (Manual names)
     None length (lit "sel") (TsExact 5) None false [] default_format.
Definition guard_rsa : SigningKey toy_crypto := SkRsa (C := toy_crypto) 7.
Definition guard_results (r : SignRequest toy_env) x : BodyHashResults := [(request_key toy_env None r, x)].
Definition guard_go r x := perform_signing toy_env 0 r sample_headers (guard_results r x).
Definition guard_good := guard_request guard_rsa NoLimit [lit "From"].
Example guard_signing :
  (exists o, guard_go guard_good (Ok ([1], 1)) = Val (Ok o))
  /\ perform_signing toy_env 0 guard_good sample_headers [] = Panic
  /\ guard_go guard_good (Err InputTruncated) = Panic
  /\ guard_go (guard_request guard_rsa (ExactLen (u64_max + 1)) [lit "From"]) (Ok ([1], 1)) = Panic
  /\ guard_go (guard_request guard_rsa NoLimit [lit "To"]) (Ok ([1], 1)) = Panic
  /\ guard_go (guard_request guard_rsa NoLimit [lit "From"; lit "a;b"]) (Ok ([1], 1)) = Panic
  /\ guard_go (guard_request (SkEd25519 (C := toy_crypto) 8) NoLimit [lit "From"]) (Ok ([1], 1)) = Panic.
Proof.
  split; [eexists; vm_compute; reflexivity|]. do 5 (split; [vm_compute; reflexivity|]). vm_compute; reflexivity.
Qed.

(** src/verifier/header.rs, src/verifier/mod.rs, src/message_hash.rs: a task without
    its signature, without records, or not decided; a hash that is missing *)
Section Verifying.
Let sig len : DkimSig := mkSig RsaSha256 [1] [2] (mkCanon Simple Simple) (lit "example.com") [lit "From"] None len (lit "sel") None None [] [].
Let task st sg : VerifyTask := mkTask (Some []) (Some []) st 0 sg None.
Example guard_verify :
  add_lookups sample_idna [] [task InProgress None] = Panic
  /\ body_hasher_key 10 (sig (Some 11)) = Panic
  /\ body_hasher_key 10 (sig (Some 10)) = Val (Some 10, Sha256, Simple)
  /\ verify_body_hash 10 (sig None) [] = Panic
  /\ finish_tasks 10 [] [mkVResult Success 0 None None] = Panic
  /\ verify_task toy_env (task InProgress None) [] default_config (Ok []) = Panic
  /\ verify_task toy_env (task InProgress (Some (sig None))) [] default_config (Ok []) = Panic
  /\ build_tasks toy_env (bhb_new false) [task InProgress (Some (sig None))] = Panic
  /\ build_tasks toy_env (bhb_new false) [task Successful None] = Panic.
Proof. do 8 (split; [vm_compute; reflexivity|]). vm_compute; reflexivity. Qed.
End Verifying.

(** the [debug_assert!]s, and the checks of arithmetic *)
Example guard_dev :
  strip_suffix_dev (lit "abc") (lit "b") = Panic /\ strip_suffix_dev (lit "abc") (lit "xabc") = Panic
  /\ strip_suffix_dev (lit "abc") (lit "c") = Val (lit "ab")
  /\ u8_from_digits_dev 48 71 = Panic /\ u8_from_digits_dev 71 48 = Panic /\ u8_from_digits_dev 102 70 = Val 255
  /\ checked_sub 1 2 = Panic /\ checked_sub 2 2 = Val 0%nat
  /\ parse_colon_separated_value_dev (lit " a") = Panic /\ parse_base64_value_dev (lit "YQ==;") = Panic
  /\ parse_qp_section_value_dev (lit "a;") = Panic /\ parse_quoted_printable_value_dev (lit "a;") = Panic
  /\ parse_quoted_printable_header_field_dev (lit "a:;") = Panic
  /\ parse_quoted_printable_header_field_dev (lit " a:b ") = Val (Some (lit "a", lit "b"))
  /\ is_label_dev (lit "a.b") = Panic
  /\ canonicalize_header_relaxed_dev [10] = Panic /\ canonicalize_header_relaxed_dev (lit " a  b ") = Val (lit "a b").
Proof. do 16 (split; [vm_compute; reflexivity|]). vm_compute; reflexivity. Qed.

Example guard_dev_format : forall cur fmt v,
  format_tag_dev cur fmt [246] v = Panic
  /\ format_tag_h_dev cur fmt [] = Panic /\ format_tag_z_dev cur fmt [] = Panic
  /\ insert_signature_data_dev [97; 246; 98] 5 (lit "DKIM-Signature") [] 78 [32] = Panic.
Proof. intros. do 3 (split; [reflexivity|]). reflexivity. Qed.

Example guard_usize :
  usize 255 true 255 = Val 255 /\ usize 255 true 256 = Panic /\ usize 255 false 257 = Val 1.
Proof. repeat split; reflexivity. Qed.
