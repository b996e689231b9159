(** Model of src/quoted_printable.rs.  Definitions only. *)

From Verif Require Import Base Utf8 Parse.

(** src/quoted_printable.rs:243-245 [is_dkim_safe_char_ascii_only] *)
Definition is_dkim_safe_char_ascii_only (c : char) : bool :=
  in_range 33 58 c || (c =? 60) || in_range 62 126 c.

(** src/quoted_printable.rs:238-241 [is_dkim_safe_char] *)
Definition is_dkim_safe_char (c : char) : bool :=
  in_range 33 58 c || (c =? 60) || in_range 62 126 c || negb (is_ascii c).

(** src/quoted_printable.rs:247-249 [is_hexdig] *)
Definition is_hexdig (c : char) : bool := is_ascii_hexdigit c.

(** [{:X}] of a value below 16 *)
Definition hex_upper (d : N) : char := if d <? 10 then 48 + d else 55 + d.

(** src/quoted_printable.rs:49-51 [encode_byte] *)
Definition encode_byte (b : byte) : str := [61; hex_upper (b / 16); hex_upper (b mod 16)].

(** src/quoted_printable.rs:53-60 *)
Definition qp_is_safe (special : option char) (ascii_only : bool) (c : char) : bool :=
  (if ascii_only then is_dkim_safe_char_ascii_only c else is_dkim_safe_char c)
  && negb (match special with Some d => d =? c | None => false end).

(** src/quoted_printable.rs:66-75 *)
Definition encode_chars (special : option char) (ascii_only : bool) (chunk : str) : str :=
  flat_map (fun c => if qp_is_safe special ascii_only c then [c]
                     else flat_map encode_byte (utf8_char c)) chunk.

(** src/quoted_printable.rs:48-84 [encode_internal]; [fuel] bounds the number of
    iterations of the [while] loop by the input length (each one consumes at
    least one byte) *)
Fixpoint encode_loop (fuel : nat) (special : option char) (ascii_only : bool) (bytes : list byte)
    : str :=
  match fuel with
  | O => []
  | S fuel' =>
      match bytes with
      | [] => []
      | b :: bytes' =>
          match next_utf8_chunk bytes with
          | Some chunk =>
              encode_chars special ascii_only chunk
              ++ encode_loop fuel' special ascii_only (skipn (str_len chunk) bytes)
          | None => encode_byte b ++ encode_loop fuel' special ascii_only bytes'
          end
      end
  end.
Definition encode_internal (special : option char) (ascii_only : bool) (bytes : list byte) : str :=
  encode_loop (length bytes) special ascii_only bytes.

(** src/quoted_printable.rs:34-36 [encode] *)
Definition qp_encode (bytes : list byte) (special : option char) : str :=
  encode_internal special false bytes.
(** src/quoted_printable.rs:42-44 [encode_ascii_only] *)
Definition qp_encode_ascii_only (bytes : list byte) (special : option char) : str :=
  encode_internal special true bytes.

(** src/quoted_printable.rs:207-227 [to_u8] *)
Definition hex_to_u8 (c : byte) : outcome N :=
  if in_range 48 57 c then Val (c - 48)
  else if in_range 65 70 c then Val (c - 55)
  else if in_range 97 102 c then Val (c - 87)
  else Panic.

(** src/quoted_printable.rs:204-232 [u8_from_digits] *)
Definition u8_from_digits (c1 c2 : byte) : outcome byte :=
  let! a := hex_to_u8 c1 in
  let! b := hex_to_u8 c2 in
  Val (a * 16 + b).

(** src/quoted_printable.rs:155-160 [strip_hexdig] *)
Definition strip_hexdig (s : str) : option (str * byte) :=
  let s := skip_fws s in
  match strip_prefix_if is_hexdig s with
  | None => None
  | Some snext => Some (snext, hd 0 (as_bytes s))
  end.

(** src/quoted_printable.rs:154-168 [strip_hex_octet] *)
Definition strip_hex_octet (s : str) : outcome (option (str * byte)) :=
  match strip_hexdig s with
  | None => Val None
  | Some (s1, digit1) =>
      match strip_hexdig s1 with
      | None => Val None
      | Some (s2, digit2) =>
          let! b := u8_from_digits digit1 digit2 in
          Val (Some (s2, b))
      end
  end.

(** src/quoted_printable.rs:100-104 [strip_dkim_safe_chars] *)
Definition strip_dkim_safe_chars (input : str) : option str :=
  option_map (trim_start is_dkim_safe_char) (strip_prefix_if is_dkim_safe_char input).

(** src/quoted_printable.rs:106 [State] *)
Inductive QPState := QChar | QFws.

(** src/quoted_printable.rs:111-151: the loop and the final check; [None] is
    [QuotedPrintableError]; [fuel] bounds the number of iterations by the length
    of the input plus one (each one consumes at least one character) *)
Fixpoint qp_decode_loop (fuel : nat) (state : QPState) (s : str) (acc : list byte)
    : outcome (option (list byte)) :=
  match fuel with
  | O => Panic
  | S fuel' =>
      match strip_prefix_char 61 s with
      | Some snext =>
          let! r := strip_hex_octet snext in
          match r with
          | None => Val None
          | Some (snext, x) => qp_decode_loop fuel' QChar snext (acc ++ [x])
          end
      | None =>
          match strip_dkim_safe_chars s with
          | Some snext =>
              qp_decode_loop fuel' QChar snext (acc ++ as_bytes (strip_suffix s snext))
          | None =>
              match strip_fws s with
              | Some snext =>
                  match state with
                  | QChar => qp_decode_loop fuel' QFws snext acc
                  | QFws => Val None
                  end
              | None => Val (if is_nil s then Some acc else None)
              end
          end
      end
  end.

(** src/quoted_printable.rs:99-152 [decode] *)
Definition qp_decode (s : str) : outcome (option (list byte)) :=
  qp_decode_loop (S (length s)) QChar s [].

(** src/quoted_printable.rs:175-202 [decode_qp_section] *)
Fixpoint qp_section_loop (chars : str) (acc : list byte) : outcome (option (list byte)) :=
  match chars with
  | [] => Val (Some acc)
  | c :: rest =>
      if c =? 61 then
        match rest with
        | c1 :: rest1 =>
            if is_hexdig c1 then
              match rest1 with
              | c2 :: rest2 =>
                  if is_hexdig c2 then
                    let! b := u8_from_digits c1 c2 in
                    qp_section_loop rest2 (acc ++ [b])
                  else Val None
              | [] => Val None
              end
            else Val None
        | [] => Val None
        end
      else if is_dkim_safe_char c || is_wsp c then qp_section_loop rest (acc ++ utf8_char c)
      else Val None
  end.
Definition decode_qp_section (s : str) : outcome (option (list byte)) := qp_section_loop s [].
