(** UTF-8: the std functions [str::as_bytes], [char::len_utf8],
    [str::from_utf8] (and [Utf8Error::valid_up_to]), and
    [util::next_utf8_chunk].  Definitions only. *)

From Verif Require Import Base.

(** std [char::encode_utf8] *)
Definition utf8_char (c : char) : list byte :=
  if c <? 0x80 then [c]
  else if c <? 0x800 then [0xC0 + c / 0x40; 0x80 + c mod 0x40]
  else if c <? 0x10000 then
    [0xE0 + c / 0x1000; 0x80 + (c / 0x40) mod 0x40; 0x80 + c mod 0x40]
  else
    [0xF0 + c / 0x40000; 0x80 + (c / 0x1000) mod 0x40;
     0x80 + (c / 0x40) mod 0x40; 0x80 + c mod 0x40].

(** std [str::as_bytes]/[str::bytes] *)
Definition as_bytes (s : str) : list byte := flat_map utf8_char s.

(** std [str::len]: length in bytes *)
Definition str_len (s : str) : nat := length (as_bytes s).

(** continuation bytes *)
Definition is_cont (b : byte) : bool := in_range 0x80 0xBF b.

(** Well-formed two-, three- and four-byte sequences (Unicode, table 3-7), as
    checked by std's [run_utf8_validation]. *)
Definition ok2 (b1 b2 : byte) : bool := in_range 0xC2 0xDF b1 && is_cont b2.
Definition ok3 (b1 b2 b3 : byte) : bool :=
  ((b1 =? 0xE0) && in_range 0xA0 0xBF b2
   || in_range 0xE1 0xEC b1 && is_cont b2
   || (b1 =? 0xED) && in_range 0x80 0x9F b2
   || in_range 0xEE 0xEF b1 && is_cont b2) && is_cont b3.
Definition ok4 (b1 b2 b3 b4 : byte) : bool :=
  ((b1 =? 0xF0) && in_range 0x90 0xBF b2
   || in_range 0xF1 0xF3 b1 && is_cont b2
   || (b1 =? 0xF4) && in_range 0x80 0x8F b2) && is_cont b3 && is_cont b4.

(** The longest valid UTF-8 prefix of the input (decoded), and the remaining
    bytes; the length of the prefix is std's [Utf8Error::valid_up_to]. *)
Fixpoint utf8_prefix (bs : list byte) : str * list byte :=
  match bs with
  | [] => ([], [])
  | b1 :: r1 =>
      if b1 <? 0x80 then let '(s, r) := utf8_prefix r1 in (b1 :: s, r)
      else
        match r1 with
        | [] => ([], bs)
        | b2 :: r2 =>
            if ok2 b1 b2 then
              let '(s, r) := utf8_prefix r2 in
              ((b1 - 0xC0) * 0x40 + (b2 - 0x80) :: s, r)
            else
              match r2 with
              | [] => ([], bs)
              | b3 :: r3 =>
                  if ok3 b1 b2 b3 then
                    let '(s, r) := utf8_prefix r3 in
                    ((b1 - 0xE0) * 0x1000 + (b2 - 0x80) * 0x40 + (b3 - 0x80) :: s, r)
                  else
                    match r3 with
                    | [] => ([], bs)
                    | b4 :: r4 =>
                        if ok4 b1 b2 b3 b4 then
                          let '(s, r) := utf8_prefix r4 in
                          ((b1 - 0xF0) * 0x40000 + (b2 - 0x80) * 0x1000
                           + (b3 - 0x80) * 0x40 + (b4 - 0x80) :: s, r)
                        else ([], bs)
                    end
              end
        end
  end.

(** std [str::from_utf8] *)
Definition from_utf8 (bs : list byte) : option str :=
  let '(s, r) := utf8_prefix bs in
  if is_nil r then Some s else None.

(** src/util.rs:118-134 [next_utf8_chunk] *)
Definition next_utf8_chunk (input : list byte) : option str :=
  match from_utf8 input with
  | Some s => if is_nil s then None else Some s
  | None =>
      let '(s, _) := utf8_prefix input in
      if Nat.ltb 0 (str_len s) then Some s else None
  end.

(** std [str::split_at]/[&s[..n]]/[&s[n..]] at byte offset [n]: [None] (a panic
    in Rust) if [n] is out of range or not on a character boundary *)
Fixpoint split_at_byte (n : nat) (s : str) : option (str * str) :=
  match n with
  | O => Some ([], s)
  | S _ =>
      match s with
      | [] => None
      | c :: s' =>
          let k := length (utf8_char c) in
          if Nat.leb k n then
            match split_at_byte (n - k) s' with
            | Some (a, b) => Some (c :: a, b)
            | None => None
            end
          else None
      end
  end.

(** Length of the ill-formed sequence at the start of [bs], where no valid
    character starts (std [Utf8Error::error_len]; up to the end of input if
    incomplete). *)
Definition invalid_len (bs : list byte) : nat :=
  match bs with
  | b1 :: b2 :: r =>
      let second3 := (b1 =? 0xE0) && in_range 0xA0 0xBF b2
                     || in_range 0xE1 0xEC b1 && is_cont b2
                     || (b1 =? 0xED) && in_range 0x80 0x9F b2
                     || in_range 0xEE 0xEF b1 && is_cont b2 in
      let second4 := (b1 =? 0xF0) && in_range 0x90 0xBF b2
                     || in_range 0xF1 0xF3 b1 && is_cont b2
                     || (b1 =? 0xF4) && in_range 0x80 0x8F b2 in
      if second3 then 2
      else if second4 then
        match r with
        | b3 :: _ => if is_cont b3 then 3 else 2
        | [] => 2
        end
      else 1
  | _ => 1
  end.

(** std [String::from_utf8_lossy]; [fuel] is the number of bytes *)
Fixpoint lossy_loop (fuel : nat) (bs : list byte) : str :=
  match fuel with
  | O => []
  | S fuel' =>
      let '(s, r) := utf8_prefix bs in
      s ++ match r with
           | [] => []
           | _ => 0xFFFD :: lossy_loop fuel' (skipn (invalid_len r) r)
           end
  end.
Definition from_utf8_lossy (bs : list byte) : str := lossy_loop (S (length bs)) bs.
