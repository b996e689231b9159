(** Model of [encode_base64] and [decode_base64] of src/util.rs:31-51, which
    delegate to the [Base64] alphabet of the external crate base64ct: RFC 4648,
    section 4, with mandatory padding; decoding is strict, i.e. accepts exactly
    the strings that encoding produces (canonical padding and zero trailing
    bits), and accepts no whitespace.  Definitions only. *)

From Verif Require Import Base.

(** the base64 alphabet *)
Definition b64_char (v : N) : char :=
  if v <? 26 then 65 + v
  else if v <? 52 then 71 + v
  else if v <? 62 then v - 4
  else if v =? 62 then 43 else 47.

Definition b64_val (c : char) : option N :=
  if in_range 65 90 c then Some (c - 65)
  else if in_range 97 122 c then Some (c - 71)
  else if in_range 48 57 c then Some (c + 4)
  else if c =? 43 then Some 62
  else if c =? 47 then Some 63
  else None.

(** src/util.rs:32-34 [encode_base64] (external: base64ct [Encoding::encode_string]) *)
Fixpoint encode_base64 (bs : list byte) : str :=
  match bs with
  | [] => []
  | [a] => [b64_char (a / 4); b64_char ((a mod 4) * 16); 61; 61]
  | [a; b] => [b64_char (a / 4); b64_char ((a mod 4) * 16 + b / 16); b64_char ((b mod 16) * 4); 61]
  | a :: b :: c :: rest =>
      b64_char (a / 4) :: b64_char ((a mod 4) * 16 + b / 16)
      :: b64_char ((b mod 16) * 4 + c / 64) :: b64_char (c mod 64)
      :: encode_base64 rest
  end.

(** src/util.rs:49-51 [decode_base64] (external: base64ct [Encoding::decode_vec]) *)
Fixpoint decode_base64 (s : str) : option (list byte) :=
  match s with
  | [] => Some []
  | [c1; c2; c3; c4] =>
      match b64_val c1, b64_val c2 with
      | Some v1, Some v2 =>
          if c4 =? 61 then
            if c3 =? 61 then
              if v2 mod 16 =? 0 then Some [v1 * 4 + v2 / 16] else None
            else
              match b64_val c3 with
              | Some v3 =>
                  if v3 mod 4 =? 0 then Some [v1 * 4 + v2 / 16; (v2 mod 16) * 16 + v3 / 4] else None
              | None => None
              end
          else
            match b64_val c3, b64_val c4 with
            | Some v3, Some v4 =>
                Some [v1 * 4 + v2 / 16; (v2 mod 16) * 16 + v3 / 4; (v3 mod 4) * 64 + v4]
            | _, _ => None
            end
      | _, _ => None
      end
  | c1 :: c2 :: c3 :: c4 :: rest =>
      match b64_val c1, b64_val c2, b64_val c3, b64_val c4 with
      | Some v1, Some v2, Some v3, Some v4 =>
          match decode_base64 rest with
          | Some bs =>
              Some (v1 * 4 + v2 / 16 :: (v2 mod 16) * 16 + v3 / 4 :: (v3 mod 4) * 64 + v4 :: bs)
          | None => None
          end
      | _, _, _, _ => None
      end
  | _ => None
  end.
