(** Model of src/signer/format.rs.  Definitions only.

    [out : &mut String] and the cursor [i : &mut usize] are threaded as a pair
    [(out, i)].  [usize] arithmetic on cursors and lengths is arithmetic on [nat]
    (for overflow see [Cursor.v]; for subtractions and debug assertions [Dev.v]). *)

From Coq Require Import String List.
From Verif Require Import Base Utf8 Canon BodyHash Header Parse QP Base64 Domain Signature.

(** src/signer/format.rs:32-45 [UnsignedDkimSignature] *)
Record USig := mkUSig {
  u_algorithm : SigningAlg;
  u_body_hash : list byte;
  u_canonicalization : Canonicalization;
  u_domain : DomainName;
  u_signed_headers : list FieldName;
  u_identity : option Identity;
  u_body_length : option N;
  u_selector : Selector;
  u_timestamp : option N;
  u_expiration : option N;
  u_copied_headers : list (FieldName * list byte);
  u_ext_tags : list (str * str)
}.

(** src/signer/format.rs:58-74 [into_signature] *)
Definition into_signature (u : USig) (signature_data : list byte) : DkimSig :=
  mkSig (u_algorithm u) signature_data (u_body_hash u) (u_canonicalization u) (u_domain u)
    (u_signed_headers u) (u_identity u) (u_body_length u) (u_selector u) (u_timestamp u)
    (u_expiration u) (u_copied_headers u) (u_ext_tags u).

(** src/signer/format.rs:77 *)
Definition LINE_WIDTH : nat := 78.

(** src/signer/format.rs:79-84 [is_output_tag] *)
Definition is_output_tag (name : str) : bool :=
  mem_str name [lit "v"; lit "a"; lit "b"; lit "bh"; lit "c"; lit "d"; lit "h"; lit "i";
                lit "l"; lit "s"; lit "t"; lit "x"; lit "z"].

(** src/signer/mod.rs:195-218 [OutputFormat]; the comparison closure
    [tag_order] is represented by the sorting function
    [names.sort_by(tag_order)] that it induces *)
Record OutputFormat := mkFormat {
  of_header_name : str;
  of_line_width : nat;      (* non-zero *)
  of_indentation : str;
  of_tag_order : option (list str -> list str);
  of_ascii_only : bool
}.

(** src/signer/format.rs:87-128 [compute_tag_names] *)
Definition compute_tag_names (u : USig) (tag_order : option (list str -> list str)) : list str :=
  let c := u_canonicalization u in
  let names :=
    [lit "v"; lit "d"]
    ++ (if is_some (u_identity u) then [lit "i"] else [])
    ++ [lit "s"; lit "a"]
    ++ (match c_header c, c_body c with Simple, Simple => [] | _, _ => [lit "c"] end)
    ++ (if is_some (u_body_length u) then [lit "l"] else [])
    ++ (if is_some (u_timestamp u) then [lit "t"] else [])
    ++ (if is_some (u_expiration u) then [lit "x"] else [])
    ++ [lit "h"; lit "bh"; lit "b"]
    ++ (if negb (is_nil (u_copied_headers u)) then [lit "z"] else [])
    ++ map fst (u_ext_tags u) in
  match tag_order with
  | Some sort => sort names
  | None => names
  end.

(** src/signer/format.rs:132-137 [Fmt] *)
Record Fmt := mkFmt { f_width : nat; f_indent : str; f_last : bool; f_ascii : bool }.

Notation Cur := (list N * nat)%type (only parsing).

(** src/signer/format.rs:466-475 [advance_i] *)
Definition advance_i (cur : Cur) (len : nat) (fmt : Fmt) : Cur :=
  let '(out, i) := cur in
  if Nat.leb (i + len) (f_width fmt) then (out, i + len)%nat
  else (out ++ CRLF ++ f_indent fmt, str_len (f_indent fmt) + len)%nat.

(** src/signer/format.rs:477-488 [advance_i_initial] *)
Definition advance_i_initial (cur : Cur) (len : nat) (fmt : Fmt) : Cur :=
  let '(out, i) := cur in
  if Nat.leb (i + len + 1) (f_width fmt) then (out ++ [SP], i + (len + 1))%nat
  else (out ++ CRLF ++ f_indent fmt, str_len (f_indent fmt) + len)%nat.

(** src/signer/format.rs:508-529: the remaining chunks; [fuel] bounds the number
    of chunks by the number of characters *)
Fixpoint format_chunks_rest (fuel : nat) (chunk_width : nat) (indent : str) (cur : Cur) (s : str)
    : Cur :=
  match fuel with
  | O => cur
  | S fuel' =>
      if is_nil s then cur
      else
        let chunk := firstn chunk_width s in
        let '(out, i) := cur in
        format_chunks_rest fuel' chunk_width indent
          (out ++ CRLF ++ indent ++ chunk, length chunk + str_len indent)%nat
          (skipn chunk_width s)
  end.

(** src/signer/format.rs:490-530 [format_chunks_into_string] (the byte offsets
    obtained from [char_indices] are replaced by the character offsets they
    stand for) *)
Definition format_chunks_into_string (cur : Cur) (fmt : Fmt) (s : str) : Cur :=
  let '(out, i) := cur in
  let first_chunk_len := Nat.min (f_width fmt - i) (length s) in
  let first_chunk := firstn first_chunk_len s in
  let rest := skipn first_chunk_len s in
  let chunk_width := Nat.max (f_width fmt - str_len (f_indent fmt)) 1 in
  format_chunks_rest (length rest) chunk_width (f_indent fmt)
    (out ++ first_chunk, i + length first_chunk)%nat rest.

(** src/signer/format.rs:302-316 [format_tag] *)
Definition format_tag (cur : Cur) (fmt : Fmt) (name value : str) : Cur :=
  let taglen := (str_len name + length value + if f_last fmt then 1 else 2)%nat in
  let '(out, i) := advance_i_initial cur taglen fmt in
  (out ++ name ++ [61] ++ value ++ (if f_last fmt then [] else [59]), i).

(** decimal digits of a number ([u64::to_string]) *)
Fixpoint dec_loop (fuel : nat) (n : N) (acc : str) : str :=
  match fuel with
  | O => acc
  | S fuel' =>
      let acc' := (48 + n mod 10) :: acc in
      if n / 10 =? 0 then acc' else dec_loop fuel' (n / 10) acc'
  end.
Definition dec_str (n : N) : str := dec_loop (S (N.to_nat (N.log2 n))) n [].

(** src/signer/format.rs:208-210 *)
Definition format_tag_v (cur : Cur) (fmt : Fmt) : Cur := format_tag cur fmt (lit "v") (lit "1").

(** src/signer/format.rs:273-275 *)
Definition format_tag_a (cur : Cur) (fmt : Fmt) (a : SigningAlg) : Cur :=
  format_tag cur fmt (lit "a") (alg_str a).

(** src/signer/format.rs:277-288 *)
Definition format_tag_c (cur : Cur) (fmt : Fmt) (c : Canonicalization) : Cur :=
  match c_header c, c_body c with
  | Simple, Simple => cur
  | Simple, Relaxed => format_tag cur fmt (lit "c") (lit "simple/relaxed")
  | Relaxed, Simple => format_tag cur fmt (lit "c") (lit "relaxed")
  | Relaxed, Relaxed => format_tag cur fmt (lit "c") (lit "relaxed/relaxed")
  end.

(** src/signer/format.rs:290-300 *)
Definition format_tag_l (cur : Cur) (fmt : Fmt) (n : N) : Cur := format_tag cur fmt (lit "l") (dec_str n).
Definition format_tag_t (cur : Cur) (fmt : Fmt) (n : N) : Cur := format_tag cur fmt (lit "t") (dec_str n).
Definition format_tag_x (cur : Cur) (fmt : Fmt) (n : N) : Cur := format_tag cur fmt (lit "x") (dec_str n).

(** src/signer/format.rs:334-343: the names after the first; [names.peek()] is
    [None] iff [rest] is empty *)
Fixpoint format_names (cur : Cur) (fmt : Fmt) (names : list FieldName) : Cur :=
  match names with
  | [] => cur
  | name :: rest =>
      let '(out, i) := cur in
      let len := (length name + if is_nil rest && f_last fmt then 0 else 1)%nat in
      let '(out, i) := advance_i (out ++ [58], i) len fmt in
      format_names (out ++ name, i) fmt rest
  end.

(** src/signer/format.rs:318-348 [format_tag_h] *)
Definition format_tag_h (cur : Cur) (fmt : Fmt) (value : list FieldName) : outcome Cur :=
  match value with
  | [] => Panic
  | first_name :: rest =>
      let taglen := (length first_name + if is_nil rest && f_last fmt then 2 else 3)%nat in
      let '(out, i) := advance_i_initial cur taglen fmt in
      let '(out, i) := format_names (out ++ lit "h=" ++ first_name, i) fmt rest in
      Val (out ++ (if f_last fmt then [] else [59]), i)
  end.

(** src/signer/format.rs:350-370 [format_tag_bh] *)
Definition format_tag_bh (cur : Cur) (fmt : Fmt) (value : list byte) : Cur :=
  let s := encode_base64 value in
  let '(out, i) := advance_i_initial cur 4 fmt in
  let '(out, i) := format_chunks_into_string (out ++ lit "bh=", i - 1)%nat fmt s in
  if f_last fmt then (out, i) else (out ++ [59], (i + 1)%nat).

(** src/signer/format.rs:372-406 [format_tag_name_b]; the result includes the
    (byte) insertion index *)
Definition format_tag_name_b (cur : Cur) (fmt : Fmt) (b_tag_len : nat) : Cur * nat :=
  let '(out, i) := advance_i_initial cur 3 fmt in
  let i := (i - 1)%nat in
  let out := out ++ lit "b=" in
  let insertion_i := str_len out in
  let indent_len := str_len (f_indent fmt) in
  let chunk_len := Nat.max (f_width fmt - indent_len) 1 in
  let remaining_len := (f_width fmt - i)%nat in
  let i :=
    if Nat.leb b_tag_len remaining_len then (i + b_tag_len)%nat
    else
      let final_chunk_len := Nat.modulo (b_tag_len - remaining_len) chunk_len in
      let final_chunk_len := if Nat.eqb final_chunk_len 0 then chunk_len else final_chunk_len in
      (final_chunk_len + indent_len)%nat in
  ((if f_last fmt then (out, i) else (out ++ [59], (i + 1)%nat)), insertion_i).

(** src/signer/format.rs:413-420 [format_field_value] *)
Definition format_field_value (ascii : bool) (value : list byte) : str :=
  if ascii then qp_encode_ascii_only value (Some 124) else qp_encode value (Some 124).

(** src/signer/format.rs:437-456: the copied header fields after the first *)
Fixpoint format_copied (cur : Cur) (fmt : Fmt) (fields : list (FieldName * list byte)) : Cur :=
  match fields with
  | [] => cur
  | (name, val) :: rest =>
      let '(out, i) := cur in
      let indent := f_indent fmt in
      let '(out, i) :=
        if Nat.leb (f_width fmt) i then (out ++ CRLF ++ indent, str_len indent) else (out, i) in
      let '(out, i) := (out ++ [124], (i + 1)%nat) in
      let namelen := (length name + 1)%nat in
      let cur :=
        if Nat.leb (i + namelen) (f_width fmt) then (out ++ name ++ [58], (i + namelen)%nat)
        else (out ++ CRLF ++ indent ++ name ++ [58], (str_len indent + namelen)%nat) in
      format_copied (format_chunks_into_string cur fmt (format_field_value (f_ascii fmt) val))
        fmt rest
  end.

(** src/signer/format.rs:408-462 [format_tag_z] *)
Definition format_tag_z (cur : Cur) (fmt : Fmt) (value : list (FieldName * list byte)) : outcome Cur :=
  match value with
  | [] => Panic
  | (first_name, val) :: rest =>
      let taglen := (length first_name + 3)%nat in
      let '(out, i) := advance_i_initial cur taglen fmt in
      let cur := (out ++ lit "z=" ++ first_name ++ [58], i) in
      let cur := format_chunks_into_string cur fmt (format_field_value (f_ascii fmt) val) in
      let '(out, i) := format_copied cur fmt rest in
      Val (if f_last fmt then (out, i) else (out ++ [59], (i + 1)%nat))
  end.

(** src/signer/format.rs:265-271 [select_str_form] *)
Definition select_str_form (orig xformed : str) : str :=
  if eq_ignore_ascii_case orig xformed then orig else xformed.

Section WithIdna.
Variable idna : Idna.

(** src/signer/format.rs:213-219, 225-231, 239-245: the form of a domain or
    selector written *)
Definition domain_form (ascii : bool) (d : DomainName) : outcome str :=
  let! x := (if ascii then domain_to_ascii idna d else Val (domain_to_unicode idna d)) in
  Val (select_str_form d x).

(** src/signer/format.rs:212-222 [format_tag_d] *)
Definition format_tag_d (cur : Cur) (fmt : Fmt) (d : DomainName) : outcome Cur :=
  let! s := domain_form (f_ascii fmt) d in
  Val (format_tag cur fmt (lit "d") s).

(** src/signer/format.rs:224-234 [format_tag_s] *)
Definition format_tag_s (cur : Cur) (fmt : Fmt) (sel : Selector) : outcome Cur :=
  let! s := domain_form (f_ascii fmt) sel in
  Val (format_tag cur fmt (lit "s") s).

(** src/signer/format.rs:236-261 [format_tag_i] *)
Definition format_tag_i (cur : Cur) (fmt : Fmt) (identity : Identity) : outcome Cur :=
  let! d := domain_form (f_ascii fmt) (id_domain identity) in
  let s :=
    match id_local_part identity with
    | Some l =>
        (if f_ascii fmt then qp_encode_ascii_only (as_bytes l) None
         else qp_encode (as_bytes l) None) ++ [64] ++ d
    | None => [64] ++ d
    end in
  Val (format_tag cur fmt (lit "i") s).

(** src/signer/format.rs:169-195: one tag; [ins] is [insertion_i] *)
Definition format_one (u : USig) (b_tag_len : nat) (fmt : Fmt) (cur : Cur) (ins : option nat)
    (tag_name : str) : outcome (Cur * option nat) :=
  let keep (m : outcome Cur) : outcome (Cur * option nat) := let! c := m in Val (c, ins) in
  if leqb tag_name (lit "a") then keep (Val (format_tag_a cur fmt (u_algorithm u)))
  else if leqb tag_name (lit "b") then
    let '(c, n) := format_tag_name_b cur fmt b_tag_len in Val (c, Some n)
  else if leqb tag_name (lit "bh") then keep (Val (format_tag_bh cur fmt (u_body_hash u)))
  else if leqb tag_name (lit "c") then keep (Val (format_tag_c cur fmt (u_canonicalization u)))
  else if leqb tag_name (lit "d") then keep (format_tag_d cur fmt (u_domain u))
  else if leqb tag_name (lit "h") then keep (format_tag_h cur fmt (u_signed_headers u))
  else if leqb tag_name (lit "i") then
    match u_identity u with Some i => keep (format_tag_i cur fmt i) | None => Panic end
  else if leqb tag_name (lit "l") then
    match u_body_length u with Some n => keep (Val (format_tag_l cur fmt n)) | None => Panic end
  else if leqb tag_name (lit "s") then keep (format_tag_s cur fmt (u_selector u))
  else if leqb tag_name (lit "t") then
    match u_timestamp u with Some n => keep (Val (format_tag_t cur fmt n)) | None => Panic end
  else if leqb tag_name (lit "v") then keep (Val (format_tag_v cur fmt))
  else if leqb tag_name (lit "x") then
    match u_expiration u with Some n => keep (Val (format_tag_x cur fmt n)) | None => Panic end
  else if leqb tag_name (lit "z") then keep (format_tag_z cur fmt (u_copied_headers u))
  else
    match find (fun tv => leqb (fst tv) tag_name) (u_ext_tags u) with
    | Some (t, v) => keep (Val (format_tag cur fmt t v))
    | None => Panic
    end.

(** src/signer/format.rs:164-196: the loop; [last] holds for the last name *)
Fixpoint format_tags (u : USig) (b_tag_len width : nat) (indent : str) (ascii : bool)
    (cur : Cur) (ins : option nat) (names : list str) : outcome (Cur * option nat) :=
  match names with
  | [] => Val (cur, ins)
  | n :: ns =>
      let! (cur, ins) := format_one u b_tag_len (mkFmt width indent (is_nil ns) ascii) cur ins n in
      format_tags u b_tag_len width indent ascii cur ins ns
  end.

(** src/signer/format.rs:139-199 [format_without_signature] *)
Definition format_without_signature (u : USig) (format : OutputFormat) (b_tag_len : nat)
    : outcome (str * nat) :=
  let tag_names := compute_tag_names u (of_tag_order format) in
  if is_nil tag_names then Panic
  else
    let! ((out, _), ins) :=
      format_tags u b_tag_len (of_line_width format) (of_indentation format)
        (of_ascii_only format) ([], str_len (of_header_name format) + 1)%nat None tag_names in
    match ins with
    | Some n => Val (out, n)
    | None => Panic
    end.

End WithIdna.

(** src/signer/format.rs:532-561 [insert_signature_data] ([rsplit] is the
    reverse of the pieces of [split_crlf]) *)
Definition insert_signature_data (formatted_header : str) (insertion_index : nat)
    (header_name : str) (signature_data : list byte) (line_width : nat) (indent : str)
    : outcome str :=
  let fmt := mkFmt line_width indent false false in
  let s := encode_base64 signature_data in
  match split_at_byte insertion_index formatted_header with
  | None => Panic
  | Some (pre, post) =>
      match rev (split_crlf pre) with
      | [] => Panic
      | last_line :: more =>
          let len := if is_nil more then (str_len header_name + length last_line + 1)%nat
                     else length last_line in
          let '(result, _) := format_chunks_into_string ([], len) fmt s in
          Val (pre ++ result ++ post)
      end
  end.
