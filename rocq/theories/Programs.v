(** Model of the example programs: examples/dkimsign.rs, examples/dkimverify.rs.
    Not modelled: log output ([tracing_subscriber]), arguments that are not Unicode. *)

From Coq Require Import String List.
From Verif Require Import Base Utf8 Canon BodyHash Header Domain Signature Crypto Format Sign Verify Pem Report.
Import ListNotations.
Open Scope N_scope.

(** std [str::replace]: examples/dkimsign.rs:62, examples/dkimverify.rs:25 *)
Definition replace_lf (s : str) : str := flat_map (fun c => if c =? 10 then [13; 10] else [c]) s.

(** examples/dkimsign.rs:76 *)
Fixpoint replace_crlf (s : str) : str :=
  match s with
  | [] => []
  | c :: s' =>
      match s' with
      | d :: s'' => if (c =? 13) && (d =? 10) then 10 :: replace_crlf s'' else c :: replace_crlf s'
      | [] => [c]
      end
  end.

(** std [str::split_once]: examples/dkimsign.rs:64, examples/dkimverify.rs:27 *)
Fixpoint split_once_blank (s : str) : option (str * str) :=
  match strip_prefix [13; 10; 13; 10] s with
  | Some rest => Some ([], rest)
  | None =>
      match s with
      | [] => None
      | c :: s' =>
          match split_once_blank s' with
          | Some (a, b) => Some (c :: a, b)
          | None => None
          end
      end
  end.

(** examples/dkimsign.rs:58-66, examples/dkimverify.rs:21-29: the message from
    standard input; each [None] is a panic *)
Definition read_message (stdin : list byte) : option (list HeaderField * str) :=
  match from_utf8 stdin with
  | None => None
  | Some msg =>
      if is_nil stdin then None
      else
        match split_once_blank (replace_lf msg) with
        | None => None
        | Some (header, body) =>
            match header_fields_from_str header with
            | None => None
            | Some headers => Some (headers, body)
            end
        end
  end.

(** the end of a program: exit code, standard output, standard error *)
Record Exit := mkExit { ex_code : N; ex_out : str; ex_err : str }.

Section WithEnv.
Variable E : Env.
Notation C := (env_crypto E).
Notation idna := (env_idna E).

(** examples/dkimsign.rs:42-43 *)
Definition program_request (domain : DomainName) (selector : Selector) (algorithm : SigningAlg)
    (key : SigningKey C) : SignRequest E :=
  let r := request_new E domain selector algorithm key in
  mkRequest E (r_signing_key E r) (r_algorithm E r) (r_canonicalization E r) (r_domain E r) (r_header_selection E r)
    (r_identity E r) (r_body_length E r) (r_selector E r) (r_timestamp E r) None (r_copy_headers E r)
    (r_ext_tags E r) (r_format E r).

(** examples/dkimsign.rs:74-83: one result of signing *)
Definition print_signed (x : Exit) (r : result SigningOutput SigningError) : Exit :=
  match r with
  | Ok o =>
      mkExit (ex_code x) (ex_out x ++ so_header_name o ++ lit ":" ++ replace_crlf (so_header_value o) ++ [10]) (ex_err x)
  | Err e => mkExit (ex_code x) (ex_out x) (ex_err x ++ lit "failed to sign: " ++ signing_error_text e ++ [10])
  end.

(** examples/dkimsign.rs:12-84 [main]; [files] reads a file *)
Definition dkimsign (P : Pkcs8 C) (files : str -> option (list byte)) (order : list BodyHasherKey -> list BodyHasherKey)
    (clock : nat -> N) (args : list str) (stdin : list byte) : outcome Exit :=
  match args with
  | [_; key_file; domain; selector] =>
      match files key_file with
      | None => Panic
      | Some bytes =>
      match from_utf8 bytes with
      | None => Panic
      | Some key_file =>
      let! d := domain_new idna domain in
      match d with
      | None => Panic
      | Some domain =>
      let! s := selector_new idna selector in
      match s with
      | None => Panic
      | Some selector =>
      match from_pkcs8_pem P key_file with
      | Err _ => Panic
      | Ok signing_key =>
      match alg_from_parts (sk_key_type C signing_key) Sha256 with
      | None => Panic
      | Some algorithm =>
      match read_message stdin with
      | None => Panic
      | Some (headers, body) =>
      let! signer := prepare_signing E order headers [program_request domain selector algorithm signing_key] in
      match signer with
      | Err _ => Panic
      | Ok signer =>
      let! (_, signer) := signer_chunk E signer (as_bytes body) in
      let! sigs := sign E clock signer in
      Val (fold_left print_signed sigs (mkExit 0 [] []))
      end end end end end end end end
  | _ =>
      Val (mkExit 1 [] (lit "usage: " ++ unwrap_or (hd_error args) (lit "dkimsign")
                        ++ lit " <key_file> <domain> <selector>" ++ [10]))
  end.

(** examples/dkimverify.rs:33-43 *)
Definition program_config : Config :=
  let d := default_config in
  mkConfig (cf_lookup_timeout d) (cf_max_signatures d) (cf_headers_required_in_signature d)
    (cf_headers_forbidden_to_be_unsigned d) (cf_min_key_bits d) (cf_allow_sha1 d) (cf_forbid_unsigned_content d)
    true true (cf_time_tolerance d) (cf_fixed_system_time d).

(** examples/dkimverify.rs:53-57; [show] is formatting with [{:#?}] *)
Fixpoint print_results (show : VerificationResult -> str) (i : nat) (sigs : list VerificationResult) : str :=
  match sigs with
  | [] => []
  | sig :: sigs' =>
      [10] ++ lit "SIGNATURE " ++ dec_str (N.of_nat (i + 1)) ++ [10] ++ show sig ++ [10]
      ++ print_results show (S i) sigs'
  end.

(** examples/dkimverify.rs:7-57 [main]; the resolver is part of the world *)
Definition dkimverify (show : VerificationResult -> str) (w : World) (args : list str) (stdin : list byte) : outcome Exit :=
  match args with
  | [] | [_] =>
      match read_message stdin with
      | None => Panic
      | Some (headers, body) =>
          let! v := verify_header E w headers program_config in
          match v with
          | None => Panic
          | Some (verifier, _, _) =>
              let! (_, verifier) := verifier_chunk verifier (as_bytes body) in
              let! sigs := verifier_finish E verifier in
              Val (mkExit 0 (print_results show 0 sigs) [])
          end
      end
  | program :: _ => Val (mkExit 1 [] (lit "usage: " ++ program ++ [10]))
  end.

End WithEnv.
