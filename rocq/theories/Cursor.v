(** Model of src/signer/format.rs, and of what depends on it, once more, with arithmetic
    on numbers of type [usize], which count characters, bytes, and columns: sums and
    products are computed by [add] and [mul], which panic or wrap around where the
    result is too large.  (Subtractions are saturating or follow an addition, see
    Dev.v.)  Definitions only. *)

From Coq Require Import String List.
From Verif Require Import Base Utf8 Canon BodyHash Header Parse QP Base64 Domain Signature Crypto
  Format Sign Usize.

Section Counting.
Variables add mul : nat -> nat -> outcome nat.

Notation Cur := (list N * nat)%type (only parsing).

(** src/signer/format.rs:466-475 [advance_i] *)
Definition advance_i_u (cur : Cur) (len : nat) (fmt : Fmt) : outcome Cur :=
  let '(out, i) := cur in
  let! e := add i len in
  if Nat.leb e (f_width fmt) then let! i := add i len in Val (out, i)
  else let! i := add (str_len (f_indent fmt)) len in Val (out ++ CRLF ++ f_indent fmt, i).

(** src/signer/format.rs:477-488 [advance_i_initial] *)
Definition advance_i_initial_u (cur : Cur) (len : nat) (fmt : Fmt) : outcome Cur :=
  let '(out, i) := cur in
  let! e := add i len in
  let! e := add e 1%nat in
  if Nat.leb e (f_width fmt) then
    let! n := add len 1%nat in
    let! i := add i n in
    Val (out ++ [SP], i)
  else let! i := add (str_len (f_indent fmt)) len in Val (out ++ CRLF ++ f_indent fmt, i).

(** src/signer/format.rs:508-529 *)
Fixpoint format_chunks_rest_u (fuel : nat) (chunk_width : nat) (indent : str) (cur : Cur) (s : str)
    : outcome Cur :=
  match fuel with
  | O => Val cur
  | S fuel' =>
      if is_nil s then Val cur
      else
        let chunk := firstn chunk_width s in
        let '(out, i) := cur in
        let! i := add (length chunk) (str_len indent) in
        format_chunks_rest_u fuel' chunk_width indent (out ++ CRLF ++ indent ++ chunk, i)
          (skipn chunk_width s)
  end.

(** src/signer/format.rs:490-530 [format_chunks_into_string]; without a first chunk
    ([first_chunk_len] is 0) there is nothing to add *)
Definition format_chunks_u (cur : Cur) (fmt : Fmt) (s : str) : outcome Cur :=
  let '(out, i) := cur in
  let first_chunk_len := Nat.min (f_width fmt - i) (length s) in
  let first_chunk := firstn first_chunk_len s in
  let rest := skipn first_chunk_len s in
  let! i := if Nat.ltb 0 first_chunk_len then add i (length first_chunk) else Val i in
  let chunk_width := Nat.max (f_width fmt - str_len (f_indent fmt)) 1 in
  format_chunks_rest_u (length rest) chunk_width (f_indent fmt) (out ++ first_chunk, i) rest.

(** src/signer/format.rs:302-316 [format_tag] *)
Definition format_tag_u (cur : Cur) (fmt : Fmt) (name value : str) : outcome Cur :=
  let! n := add (str_len name) (length value) in
  let! taglen := add n (if f_last fmt then 1 else 2)%nat in
  let! (out, i) := advance_i_initial_u cur taglen fmt in
  Val (out ++ name ++ [61] ++ value ++ (if f_last fmt then [] else [59]), i).

(** src/signer/format.rs:277-288 *)
Definition format_tag_c_u (cur : Cur) (fmt : Fmt) (c : Canonicalization) : outcome Cur :=
  match c_header c, c_body c with
  | Simple, Simple => Val cur
  | Simple, Relaxed => format_tag_u cur fmt (lit "c") (lit "simple/relaxed")
  | Relaxed, Simple => format_tag_u cur fmt (lit "c") (lit "relaxed")
  | Relaxed, Relaxed => format_tag_u cur fmt (lit "c") (lit "relaxed/relaxed")
  end.

(** src/signer/format.rs:334-343 *)
Fixpoint format_names_u (cur : Cur) (fmt : Fmt) (names : list FieldName) : outcome Cur :=
  match names with
  | [] => Val cur
  | name :: rest =>
      let '(out, i) := cur in
      let! len := add (length name) (if is_nil rest && f_last fmt then 0 else 1)%nat in
      let! (out, i) := advance_i_u (out ++ [58], i) len fmt in
      format_names_u (out ++ name, i) fmt rest
  end.

(** src/signer/format.rs:318-348 [format_tag_h] *)
Definition format_tag_h_u (cur : Cur) (fmt : Fmt) (value : list FieldName) : outcome Cur :=
  match value with
  | [] => Panic
  | first_name :: rest =>
      let! taglen := add (length first_name) (if is_nil rest && f_last fmt then 2 else 3)%nat in
      let! (out, i) := advance_i_initial_u cur taglen fmt in
      let! (out, i) := format_names_u (out ++ lit "h=" ++ first_name, i) fmt rest in
      Val (out ++ (if f_last fmt then [] else [59]), i)
  end.

(** src/signer/format.rs:366-369, 402-405, 458-461 *)
Definition end_tag_u (cur : Cur) (fmt : Fmt) : outcome Cur :=
  let '(out, i) := cur in
  if f_last fmt then Val (out, i) else let! i := add i 1%nat in Val (out ++ [59], i).

(** src/signer/format.rs:350-370 [format_tag_bh] *)
Definition format_tag_bh_u (cur : Cur) (fmt : Fmt) (value : list byte) : outcome Cur :=
  let s := encode_base64 value in
  let! (out, i) := advance_i_initial_u cur 4 fmt in
  let! cur := format_chunks_u (out ++ lit "bh=", i - 1)%nat fmt s in
  end_tag_u cur fmt.

(** src/signer/format.rs:372-406 [format_tag_name_b] *)
Definition format_tag_name_b_u (cur : Cur) (fmt : Fmt) (b_tag_len : nat) : outcome (Cur * nat) :=
  let! (out, i) := advance_i_initial_u cur 3 fmt in
  let i := (i - 1)%nat in
  let out := out ++ lit "b=" in
  let insertion_i := str_len out in
  let indent_len := str_len (f_indent fmt) in
  let chunk_len := Nat.max (f_width fmt - indent_len) 1 in
  let remaining_len := (f_width fmt - i)%nat in
  let! i :=
    if Nat.leb b_tag_len remaining_len then add i b_tag_len
    else
      let final_chunk_len := Nat.modulo (b_tag_len - remaining_len) chunk_len in
      let final_chunk_len := if Nat.eqb final_chunk_len 0 then chunk_len else final_chunk_len in
      add final_chunk_len indent_len in
  let! cur := end_tag_u (out, i) fmt in
  Val (cur, insertion_i).

(** src/signer/format.rs:437-456 *)
Fixpoint format_copied_u (cur : Cur) (fmt : Fmt) (fields : list (FieldName * list byte)) : outcome Cur :=
  match fields with
  | [] => Val cur
  | (name, val) :: rest =>
      let '(out, i) := cur in
      let indent := f_indent fmt in
      let '(out, i) :=
        if Nat.leb (f_width fmt) i then (out ++ CRLF ++ indent, str_len indent) else (out, i) in
      let! i := add i 1%nat in
      let out := out ++ [124] in
      let! namelen := add (length name) 1%nat in
      let! e := add i namelen in
      let! cur :=
        if Nat.leb e (f_width fmt) then let! i := add i namelen in Val (out ++ name ++ [58], i)
        else let! i := add (str_len indent) namelen in Val (out ++ CRLF ++ indent ++ name ++ [58], i) in
      let! cur := format_chunks_u cur fmt (format_field_value (f_ascii fmt) val) in
      format_copied_u cur fmt rest
  end.

(** src/signer/format.rs:408-462 [format_tag_z] *)
Definition format_tag_z_u (cur : Cur) (fmt : Fmt) (value : list (FieldName * list byte)) : outcome Cur :=
  match value with
  | [] => Panic
  | (first_name, val) :: rest =>
      let! taglen := add (length first_name) 3%nat in
      let! (out, i) := advance_i_initial_u cur taglen fmt in
      let cur := (out ++ lit "z=" ++ first_name ++ [58], i) in
      let! cur := format_chunks_u cur fmt (format_field_value (f_ascii fmt) val) in
      let! cur := format_copied_u cur fmt rest in
      end_tag_u cur fmt
  end.

Section WithIdna.
Variable idna : Idna.

(** src/signer/format.rs:212-234 *)
Definition format_tag_d_u (cur : Cur) (fmt : Fmt) (d : DomainName) : outcome Cur :=
  let! s := domain_form idna (f_ascii fmt) d in
  format_tag_u cur fmt (lit "d") s.
Definition format_tag_s_u (cur : Cur) (fmt : Fmt) (sel : Selector) : outcome Cur :=
  let! s := domain_form idna (f_ascii fmt) sel in
  format_tag_u cur fmt (lit "s") s.

(** src/signer/format.rs:236-261 [format_tag_i] *)
Definition format_tag_i_u (cur : Cur) (fmt : Fmt) (identity : Identity) : outcome Cur :=
  let! d := domain_form idna (f_ascii fmt) (id_domain identity) in
  let s :=
    match id_local_part identity with
    | Some l =>
        (if f_ascii fmt then qp_encode_ascii_only (as_bytes l) None
         else qp_encode (as_bytes l) None) ++ [64] ++ d
    | None => [64] ++ d
    end in
  format_tag_u cur fmt (lit "i") s.

(** src/signer/format.rs:169-195 *)
Definition format_one_u (u : USig) (b_tag_len : nat) (fmt : Fmt) (cur : Cur) (ins : option nat)
    (tag_name : str) : outcome (Cur * option nat) :=
  let keep (m : outcome Cur) : outcome (Cur * option nat) := let! c := m in Val (c, ins) in
  if leqb tag_name (lit "a") then keep (format_tag_u cur fmt (lit "a") (alg_str (u_algorithm u)))
  else if leqb tag_name (lit "b") then
    let! (c, n) := format_tag_name_b_u cur fmt b_tag_len in Val (c, Some n)
  else if leqb tag_name (lit "bh") then keep (format_tag_bh_u cur fmt (u_body_hash u))
  else if leqb tag_name (lit "c") then keep (format_tag_c_u cur fmt (u_canonicalization u))
  else if leqb tag_name (lit "d") then keep (format_tag_d_u cur fmt (u_domain u))
  else if leqb tag_name (lit "h") then keep (format_tag_h_u cur fmt (u_signed_headers u))
  else if leqb tag_name (lit "i") then
    match u_identity u with Some i => keep (format_tag_i_u cur fmt i) | None => Panic end
  else if leqb tag_name (lit "l") then
    match u_body_length u with Some n => keep (format_tag_u cur fmt (lit "l") (dec_str n)) | None => Panic end
  else if leqb tag_name (lit "s") then keep (format_tag_s_u cur fmt (u_selector u))
  else if leqb tag_name (lit "t") then
    match u_timestamp u with Some n => keep (format_tag_u cur fmt (lit "t") (dec_str n)) | None => Panic end
  else if leqb tag_name (lit "v") then keep (format_tag_u cur fmt (lit "v") (lit "1"))
  else if leqb tag_name (lit "x") then
    match u_expiration u with Some n => keep (format_tag_u cur fmt (lit "x") (dec_str n)) | None => Panic end
  else if leqb tag_name (lit "z") then keep (format_tag_z_u cur fmt (u_copied_headers u))
  else
    match find (fun tv => leqb (fst tv) tag_name) (u_ext_tags u) with
    | Some (t, v) => keep (format_tag_u cur fmt t v)
    | None => Panic
    end.

(** src/signer/format.rs:164-196 *)
Fixpoint format_tags_u (u : USig) (b_tag_len width : nat) (indent : str) (ascii : bool)
    (cur : Cur) (ins : option nat) (names : list str) : outcome (Cur * option nat) :=
  match names with
  | [] => Val (cur, ins)
  | n :: ns =>
      let! (cur, ins) := format_one_u u b_tag_len (mkFmt width indent (is_nil ns) ascii) cur ins n in
      format_tags_u u b_tag_len width indent ascii cur ins ns
  end.

(** src/signer/format.rs:139-199 [format_without_signature] *)
Definition format_without_signature_u (u : USig) (format : OutputFormat) (b_tag_len : nat)
    : outcome (str * nat) :=
  let tag_names := compute_tag_names u (of_tag_order format) in
  if is_nil tag_names then Panic
  else
    let! i := add (str_len (of_header_name format)) 1%nat in
    let! ((out, _), ins) :=
      format_tags_u u b_tag_len (of_line_width format) (of_indentation format)
        (of_ascii_only format) ([], i) None tag_names in
    match ins with
    | Some n => Val (out, n)
    | None => Panic
    end.

End WithIdna.

(** src/signer/format.rs:532-561 [insert_signature_data] *)
Definition insert_signature_data_u (formatted_header : str) (insertion_index : nat)
    (header_name : str) (signature_data : list byte) (line_width : nat) (indent : str)
    : outcome str :=
  let fmt := mkFmt line_width indent false false in
  let s := encode_base64 signature_data in
  match split_at_byte insertion_index formatted_header with
  | None => Panic
  | Some (pre, post) =>
      match rev (split_crlf pre) with
      | [] => Panic
      | last_line :: more =>
          let! len := if is_nil more then
                        let! n := add (str_len header_name) (length last_line) in add n 1%nat
                      else Val (length last_line) in
          let! (result, _) := format_chunks_u ([], len) fmt s in
          Val (pre ++ result ++ post)
      end
  end.

Section WithEnv.
Variable E : Env.
Notation C := (env_crypto E).
Notation idna := (env_idna E).

(** src/signer/sign.rs:214-219 [estimate_b_tag_length] *)
Definition estimate_b_tag_length_u (k : SigningKey C) : outcome nat :=
  let! n := add (sk_signature_length C k) 2%nat in
  mul (Nat.div n 3) 4%nat.

(** src/signer/sign.rs:145-193 [produce_signature] *)
Definition produce_signature_u (u : USig) (key : SigningKey C) (format : OutputFormat)
    (headers : list HeaderField) : outcome (result SigningOutput SigningError) :=
  let! b_len := estimate_b_tag_length_u key in
  let! (value, insertion_index) := format_without_signature_u idna u format b_len in
  let header_name := of_header_name format in
  let hash_alg := alg_hash (u_algorithm u) in
  let data_hash := compute_data_hash (hash_fn C) hash_alg (c_header (u_canonicalization u))
                     headers (u_signed_headers u) header_name value in
  if negb (key_type_eqb (sk_key_type C key) (alg_key_type (u_algorithm u))) then Panic
  else
    match sign_hash E key hash_alg data_hash with
    | None => Val (Err SigningFailure)
    | Some signature_data =>
        let! value := insert_signature_data_u value insertion_index header_name signature_data
                        (of_line_width format) (of_indentation format) in
        Val (Ok (mkOutput header_name value (into_signature u signature_data)))
    end.

(** src/signer/sign.rs:31-138 [perform_signing] *)
Definition perform_signing_u (now : N) (request : SignRequest E) (headers : list HeaderField)
    (body_hash_results : BodyHashResults) : outcome (result SigningOutput SigningError) :=
  match bl_to_usize (env_usize_max E) (r_body_length E request) with
  | None => Panic
  | Some body_length =>
  match results_get body_hash_results (request_key E body_length request) with
  | None => Panic
  | Some (Err InputTruncated) => Panic
  | Some (Err InsufficientInput) => Val (Err InsufficientContent)
  | Some (Ok (body_hash, final_len)) =>
      match
        match r_body_length E request with
        | NoLimit => Some None
        | MessageContent | ExactLen _ => if final_len <=? u64_max then Some (Some final_len) else None
        end
      with
      | None => Val (Err SigOverflow)
      | Some body_length =>
          let signed_headers :=
            match r_header_selection E request with
            | Auto => select_signed_headers headers
            | Manual h => h
            end in
          if negb (existsb (fun n => name_eqb n (lit "From")) signed_headers) then Panic
          else if existsb (contains_char 59) signed_headers then Panic
          else
            let timestamp :=
              match r_timestamp E request with
              | TsNone => None
              | TsNow => Some now
              | TsExact t => Some t
              end in
            let expiration :=
              option_map (fun d => saturating_add (unwrap_or timestamp now) d)
                (r_valid_duration E request) in
            let copied_headers :=
              if r_copy_headers E request then prepare_copied_headers headers signed_headers else [] in
            produce_signature_u
              (mkUSig (r_algorithm E request) body_hash (r_canonicalization E request)
                 (r_domain E request) signed_headers (r_identity E request) body_length
                 (r_selector E request) timestamp expiration copied_headers (r_ext_tags E request))
              (r_signing_key E request) (r_format E request) headers
      end
  end
  end.

(** src/signer/mod.rs:620-627 *)
Fixpoint sign_tasks_u (clock : nat -> N) (i : nat) (headers : list HeaderField)
    (results : BodyHashResults) (tasks : list (SignRequest E))
    : outcome (list (result SigningOutput SigningError)) :=
  match tasks with
  | [] => Val []
  | t :: ts =>
      let! r := perform_signing_u (clock i) t headers results in
      let! rs := sign_tasks_u clock (S i) headers results ts in
      Val (r :: rs)
  end.

End WithEnv.
End Counting.

(** addition and multiplication of numbers of type [usize] *)
Definition usize_op (max : N) (checks : bool) (op : N -> N -> N) (a b : nat) : outcome nat :=
  let! n := usize max checks (op (N.of_nat a) (N.of_nat b)) in Val (N.to_nat n).

(** signing as in src/signer/mod.rs:539-630, with all numbers of type [usize] *)
Definition sign_message_counted (E : Env) (checks : bool) (order : list BodyHasherKey -> list BodyHasherKey)
    (headers : list HeaderField) (rs : list (SignRequest E)) (chunks : list (list byte))
    (clock : nat -> N) : outcome (result (list (result SigningOutput SigningError)) RequestError) :=
  let max := env_usize_max E in
  let! p := prepare_signing E order headers rs in
  match p with
  | Err e => Val (Err e)
  | Ok s =>
      let! bh := hash_chunks_usize max checks (sg_body_hasher E s) chunks in
      let! results := bh_finish_usize max checks (hash_fn (env_crypto E)) bh in
      let! rs := sign_tasks_u (usize_op max checks N.add) (usize_op max checks N.mul) E clock 0
                   (sg_headers E s) results (sg_tasks E s) in
      Val (Ok rs)
  end.
