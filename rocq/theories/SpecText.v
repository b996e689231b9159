(** Specification of the text encodings: UTF-8 segmentation, folding whitespace,
    DKIM-Quoted-Printable (RFC 6376, section 2.11), base64 (RFC 4648). *)

From Coq Require Import String List.
From Verif Require Import Base Utf8.

(** ** UTF-8 *)

(** No character is encoded at the start of [bs]. *)
Definition no_char_at (bs : list byte) : Prop :=
  forall c rest, is_scalar c -> bs <> utf8_char c ++ rest.

(** [bs] consists of the encoded characters [s] followed by [rest], where no
    further character starts. *)
Definition utf8_split (bs : list byte) (s : str) (rest : list byte) : Prop :=
  Forall is_scalar s /\ bs = as_bytes s ++ rest /\ no_char_at rest.

(** ** Folding whitespace *)

Definition wsps (w : str) : Prop := Forall (fun c => c = 32 \/ c = 9) w.

(** RFC 6376, section 2.8: FWS = [*WSP CRLF] 1*WSP *)
Definition fws (f : str) : Prop :=
  exists w, wsps w /\ w <> [] /\
    (f = w \/ exists w0, wsps w0 /\ f = w0 ++ [13; 10] ++ w).
Definition ofws (f : str) : Prop := f = [] \/ fws f.

(** ** DKIM-Quoted-Printable *)

(** dkim-safe-char = %x21-3A / %x3C / %x3E-7E; and, RFC 8616, non-ASCII *)
Definition dkim_safe (c : char) : Prop :=
  (33 <= c /\ c <= 126 /\ c <> 59 /\ c <> 61) \/ 128 <= c.

(** hexadecimal digits *)
Inductive hexdigit : char -> N -> Prop :=
| hd_dec : forall d, d < 10 -> hexdigit (48 + d) d
| hd_up : forall d, d < 6 -> hexdigit (65 + d) (10 + d)
| hd_low : forall d, d < 6 -> hexdigit (97 + d) (10 + d).

(** items, each followed by optional folding whitespace *)
Inductive qp_items : str -> list byte -> Prop :=
| qi_nil : qp_items [] []
| qi_safe : forall c f s bs,
    dkim_safe c -> ofws f -> qp_items s bs ->
    qp_items (c :: f ++ s) (utf8_char c ++ bs)
| qi_hex : forall f1 c1 v1 f2 c2 v2 f3 s bs,
    ofws f1 -> hexdigit c1 v1 -> ofws f2 -> hexdigit c2 v2 -> ofws f3 -> qp_items s bs ->
    qp_items (61 :: f1 ++ c1 :: f2 ++ c2 :: f3 ++ s) (v1 * 16 + v2 :: bs).

(** the text [s] stands for the bytes [bs] *)
Definition qp_text (s : str) (bs : list byte) : Prop :=
  exists f s', ofws f /\ s = f ++ s' /\ qp_items s' bs.

(** upper-case hex digit *)
Definition hex_char (d : N) : char := nth (N.to_nat d) (lit "0123456789ABCDEF") 0.
Definition hex_escape (b : byte) : str := [61; hex_char (b / 16); hex_char (b mod 16)].

(** what may be written literally *)
Definition literal (special : option char) (ascii_only : bool) (c : char) : Prop :=
  dkim_safe c /\ special <> Some c /\ (ascii_only = true -> c < 128).

(** the encoding of bytes that may or may not be UTF-8 *)
Inductive qp_encoding (special : option char) (ascii_only : bool) : list byte -> str -> Prop :=
| qe_nil : qp_encoding special ascii_only [] []
| qe_literal : forall c bs s,
    is_scalar c -> literal special ascii_only c ->
    qp_encoding special ascii_only bs s ->
    qp_encoding special ascii_only (utf8_char c ++ bs) (c :: s)
| qe_escaped : forall c bs s,
    is_scalar c -> ~ literal special ascii_only c ->
    qp_encoding special ascii_only bs s ->
    qp_encoding special ascii_only (utf8_char c ++ bs) (flat_map hex_escape (utf8_char c) ++ s)
| qe_invalid : forall b bs s,
    no_char_at (b :: bs) ->
    qp_encoding special ascii_only bs s ->
    qp_encoding special ascii_only (b :: bs) (hex_escape b ++ s).

(** qp-section, RFC 2045 (as used in the n= tag of key records): no folding *)
Inductive qp_section : str -> list byte -> Prop :=
| qs_nil : qp_section [] []
| qs_char : forall c s bs,
    dkim_safe c \/ c = 32 \/ c = 9 -> qp_section s bs -> qp_section (c :: s) (utf8_char c ++ bs)
| qs_hex : forall c1 v1 c2 v2 s bs,
    hexdigit c1 v1 -> hexdigit c2 v2 -> qp_section s bs ->
    qp_section (61 :: c1 :: c2 :: s) (v1 * 16 + v2 :: bs).

(** [t] is [s] with text satisfying [P] inserted before, between and after its
    characters *)
Inductive inserted (P : str -> Prop) : str -> str -> Prop :=
| ins_nil : forall f, P f -> inserted P [] f
| ins_cons : forall f c s t, P f -> inserted P s t -> inserted P (c :: s) (f ++ c :: t).

(** ** Base64 *)

Definition b64_alphabet : str :=
  lit "ABCDEFGHIJKLMNOPQRSTUVWXYZabcdefghijklmnopqrstuvwxyz0123456789+/".
Definition b64_digit (v : N) : char := nth (N.to_nat v) b64_alphabet 0.

(** RFC 4648, section 4: 24-bit groups as four 6-bit digits, final group padded *)
Inductive base64 : list byte -> str -> Prop :=
| b64_nil : base64 [] []
| b64_one : forall a, let n := a * 65536 in
    base64 [a] [b64_digit (n / 2^18); b64_digit (n / 2^12 mod 64); 61; 61]
| b64_two : forall a b, let n := a * 65536 + b * 256 in
    base64 [a; b] [b64_digit (n / 2^18); b64_digit (n / 2^12 mod 64); b64_digit (n / 2^6 mod 64); 61]
| b64_three : forall a b c bs s, let n := a * 65536 + b * 256 + c in
    base64 bs s ->
    base64 (a :: b :: c :: bs)
      (b64_digit (n / 2^18) :: b64_digit (n / 2^12 mod 64) :: b64_digit (n / 2^6 mod 64)
       :: b64_digit (n mod 64) :: s).
