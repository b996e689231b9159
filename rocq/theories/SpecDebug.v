(** Specification of [Debug] texts. *)

From Coq Require Import String List.
From Verif Require Import Base Utf8 Canon Domain Verify Debug SpecText SpecCanon SpecDomain.

(** std's tables for US-ASCII *)
Definition tables_ok (T : Tables) : Prop :=
  forall c, c < 128 -> (tb_printable T c = true <-> 32 <= c <= 126) /\ tb_extended T c = false.

(** no line break, nor other ASCII control character *)
Definition one_line (t : str) : Prop := Forall (fun c => 32 <= c /\ c <> 127) t.

(** the value of lower-case hexadecimal digits *)
Definition hex_digit_value (d v : N) : Prop := (48 <= d <= 57 /\ v = d - 48) \/ (97 <= d <= 102 /\ v = d - 87).
Inductive hex_value : str -> N -> Prop :=
| hv_digit : forall d v, hex_digit_value d v -> hex_value [d] v
| hv_more : forall ds n d v, hex_value ds n -> hex_digit_value d v -> hex_value (ds ++ [d]) (16 * n + v).

(** the characters with an escape of their own *)
Definition short_escapes : list (char * char) :=
  [(0, 48); (9, 116); (10, 110); (13, 114); (34, 34); (39, 39); (92, 92)].

(** text in which bytes are written with backslash escapes, as in a literal of
    Rust: characters as they are, and \n etc., \u{1f}, \x1f *)
Inductive escaped : list byte -> str -> Prop :=
| es_nil : escaped [] []
| es_char : forall c bs t, is_scalar c -> 32 <= c -> c <> 127 -> c <> 34 -> c <> 92 ->
    escaped bs t -> escaped (utf8_char c ++ bs) (c :: t)
| es_short : forall c e bs t, In (c, e) short_escapes -> escaped bs t -> escaped (c :: bs) (92 :: e :: t)
| es_unicode : forall c ds bs t, is_scalar c -> hex_value ds c -> escaped bs t ->
    escaped (utf8_char c ++ bs) (lit "\u{" ++ ds ++ lit "}" ++ t)
| es_byte : forall d1 d2 v1 v2 bs t, hex_digit_value d1 v1 -> hex_digit_value d2 v2 -> escaped bs t ->
    escaped (16 * v1 + v2 :: bs) (lit "\x" ++ [d1; d2] ++ t).

Definition quoted (bs : list byte) (t : str) : Prop := exists e, t = [34] ++ e ++ [34] /\ escaped bs e.

(** a character in the text of a field value: the exact escape; in the first
    place, characters that extend the preceding one are escaped, too *)
Inductive char_shown (T : Tables) (first : bool) (c : char) : str -> Prop :=
| cs_short : forall e, In (c, e) short_escapes -> char_shown T first c [92; e]
| cs_plain : ~ In c (map fst short_escapes) -> tb_printable T c = true -> (first = true -> tb_extended T c = false) ->
    char_shown T first c [c]
| cs_unicode : forall ds, ~ In c (map fst short_escapes) ->
    tb_printable T c = false \/ (first = true /\ tb_extended T c = true) ->
    hex_value ds c -> (forall ds', ds = 48 :: ds' -> ds' = []) ->
    char_shown T first c (lit "\u{" ++ ds ++ lit "}").

(** UTF-8 characters are shown as such, bytes that are not UTF-8 one by one *)
Inductive value_shown (T : Tables) : bool -> list byte -> str -> Prop :=
| vs_nil : forall first, value_shown T first [] []
| vs_char : forall first c x bs t, is_scalar c -> char_shown T first c x -> value_shown T false bs t ->
    value_shown T first (utf8_char c ++ bs) (x ++ t)
| vs_byte : forall first b d1 d2 v1 v2 bs t, no_char_at (b :: bs) ->
    hex_digit_value d1 v1 -> hex_digit_value d2 v2 -> b = 16 * v1 + v2 -> value_shown T true bs t ->
    value_shown T first (b :: bs) (lit "\x" ++ [d1; d2] ++ t).

(** a text, as std shows it: as above, with characters that extend the preceding
    one escaped anywhere, and with plain single quotes *)
Inductive text_shown (T : Tables) : str -> str -> Prop :=
| tx_nil : text_shown T [] []
| tx_quote : forall s t, text_shown T s t -> text_shown T (39 :: s) (39 :: t)
| tx_char : forall c x s t, c <> 39 -> char_shown T true c x -> text_shown T s t -> text_shown T (c :: s) (x ++ t).

(** characters that need no escape *)
Definition plain (T : Tables) (c : char) : Prop :=
  is_scalar c /\ tb_printable T c = true /\ tb_extended T c = false /\ c <> 34 /\ c <> 39 /\ c <> 92.

(** the only control characters are line breaks *)
Definition printable_lines (t : str) : Prop := Forall (fun c => (32 <= c /\ c <> 127) \/ c = 10) t.

(** the lines of a text *)
Definition lines (t : str) : list str := split_on 10 t.
Definition begins (p l : str) : bool := is_some (strip_prefix p l).
Definition lines_with (p t : str) : list str := filter (begins p) (lines t).

(** the line with the status of a result *)
Definition verdict_line (r : VerificationResult) : str :=
  match vr_status r with
  | Success => lit "    status: Success,"
  | Failure _ => lit "    status: Failure("
  end.
