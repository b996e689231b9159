(** Shared data types and the fragment of the Rust standard library that
    viadkim uses.  Definitions only.

    Bytes ([u8]) and characters ([char]) are both represented by [N].  A Rust
    [&[u8]]/[Vec<u8>] is a [list N] of bytes; a Rust [&str]/[String] is the list
    of its characters (Unicode scalar values); its bytes are given by
    [Utf8.as_bytes].  The type invariants of [u8] and [char] are the predicates
    [is_byte] and [is_scalar]. *)

From Coq Require Export List NArith Bool Arith.
From Coq Require Import String Ascii.
Export ListNotations.
Open Scope N_scope.
Open Scope list_scope.

Notation byte := N (only parsing).
Notation char := N (only parsing).
Notation str := (list N) (only parsing).

(** type invariant of Rust's [u8] *)
Definition is_byte (b : byte) : Prop := b < 256.

(** type invariant of Rust's [char]: Unicode scalar values *)
Definition is_scalar (c : char) : Prop :=
  c < 0xD800 \/ (0xE000 <= c /\ c < 0x110000).

(** A computation that may panic ([unwrap], [expect], [assert!],
    [unreachable!], out-of-range slicing). *)
Inductive outcome (A : Type) : Type :=
| Val (a : A)
| Panic.
Arguments Val {A} a.
Arguments Panic {A}.

Definition bind {A B} (m : outcome A) (f : A -> outcome B) : outcome B :=
  match m with
  | Val a => f a
  | Panic => Panic
  end.
Notation "'let!' x ':=' m 'in' k" := (bind m (fun x => k))
  (at level 200, x pattern, m at level 100, k at level 200, right associativity).

(** Rust's [Result]. *)
Inductive result (A E : Type) : Type :=
| Ok (a : A)
| Err (e : E).
Arguments Ok {A E} a.
Arguments Err {A E} e.

(** Rust string/byte-string literals (US-ASCII only). *)
Fixpoint lit (s : string) : list N :=
  match s with
  | EmptyString => []
  | String c s' => N_of_ascii c :: lit s'
  end.

(** equality of byte strings / strings ([==] on slices) *)
Fixpoint leqb (a b : list N) : bool :=
  match a, b with
  | [], [] => true
  | x :: a', y :: b' => (x =? y) && leqb a' b'
  | _, _ => false
  end.

Definition is_nil {A} (l : list A) : bool :=
  match l with [] => true | _ => false end.

(** ASCII characters: std [char::is_ascii], [is_ascii_graphic],
    [is_ascii_alphabetic], [is_ascii_alphanumeric], [is_ascii_digit],
    [is_ascii_hexdigit], [is_ascii_control], [to_ascii_lowercase] *)
Definition in_range (lo hi c : N) : bool := (lo <=? c) && (c <=? hi).
Definition is_ascii (c : N) : bool := c <? 128.
Definition is_ascii_graphic (c : N) : bool := in_range 33 126 c.
Definition is_ascii_upper (c : N) : bool := in_range 65 90 c.
Definition is_ascii_lower (c : N) : bool := in_range 97 122 c.
Definition is_ascii_alphabetic (c : N) : bool := is_ascii_upper c || is_ascii_lower c.
Definition is_ascii_digit (c : N) : bool := in_range 48 57 c.
Definition is_ascii_alphanumeric (c : N) : bool := is_ascii_alphabetic c || is_ascii_digit c.
Definition is_ascii_hexdigit (c : N) : bool :=
  is_ascii_digit c || in_range 65 70 c || in_range 97 102 c.
Definition is_ascii_control (c : N) : bool := (c <? 32) || (c =? 127).
Definition ascii_lower (c : N) : N := if is_ascii_upper c then c + 32 else c.

(** std [str::to_ascii_lowercase] *)
Definition to_ascii_lowercase (s : list N) : list N := map ascii_lower s.
(** std [str::eq_ignore_ascii_case] *)
Definition eq_ignore_ascii_case (a b : list N) : bool :=
  leqb (to_ascii_lowercase a) (to_ascii_lowercase b).

Definition SP : N := 32.
Definition TAB : N := 9.
Definition CR : N := 13.
Definition LF : N := 10.
Definition CRLF : list N := [CR; LF].

(** std [str::strip_prefix] with a string pattern *)
Fixpoint strip_prefix (p s : list N) : option (list N) :=
  match p with
  | [] => Some s
  | x :: p' =>
      match s with
      | y :: s' => if x =? y then strip_prefix p' s' else None
      | [] => None
      end
  end.

(** std [str::strip_prefix] with a [char] predicate or a single [char] *)
Definition strip_prefix_if (p : N -> bool) (s : list N) : option (list N) :=
  match s with
  | c :: s' => if p c then Some s' else None
  | [] => None
  end.
Definition strip_prefix_char (c : N) (s : list N) : option (list N) :=
  strip_prefix_if (N.eqb c) s.

(** std [str::trim_start_matches] *)
Fixpoint trim_start (p : N -> bool) (s : list N) : list N :=
  match s with
  | c :: s' => if p c then trim_start p s' else s
  | [] => []
  end.
(** std [str::trim_end_matches] *)
Definition trim_end (p : N -> bool) (s : list N) : list N := rev (trim_start p (rev s)).

(** std [str::strip_suffix] *)
Definition strip_suffix_str (suf s : list N) : option (list N) :=
  option_map (@rev N) (strip_prefix (rev suf) (rev s)).
Definition strip_suffix_if (p : N -> bool) (s : list N) : option (list N) :=
  option_map (@rev N) (strip_prefix_if p (rev s)).

(** std [str::split] with a [char] pattern: always at least one piece *)
Fixpoint split_on (c : N) (s : list N) : list (list N) :=
  match s with
  | [] => [[]]
  | x :: s' =>
      if x =? c then [] :: split_on c s'
      else match split_on c s' with
           | p :: ps => (x :: p) :: ps
           | [] => [[x]]
           end
  end.

(** std [str::split_once] / [splitn(2, _)] *)
Fixpoint split_once (c : N) (s : list N) : option (list N * list N) :=
  match s with
  | [] => None
  | x :: s' =>
      if x =? c then Some ([], s')
      else match split_once c s' with
           | Some (a, b) => Some (x :: a, b)
           | None => None
           end
  end.

(** std [str::rsplit_once] *)
Definition rsplit_once (c : N) (s : list N) : option (list N * list N) :=
  match split_once c (rev s) with
  | Some (a, b) => Some (rev b, rev a)
  | None => None
  end.

(** std [str::starts_with] / [contains] with a [char] *)
Definition starts_with (c : N) (s : list N) : bool :=
  match s with x :: _ => x =? c | [] => false end.
Definition contains_char (c : N) (s : list N) : bool := existsb (N.eqb c) s.

Definition mem_str (x : list N) (l : list (list N)) : bool := existsb (leqb x) l.

Definition is_some {A} (o : option A) : bool := match o with Some _ => true | None => false end.
Definition unwrap_or {A} (o : option A) (d : A) : A := match o with Some a => a | None => d end.

Definition u64_max : N := 0xFFFFFFFFFFFFFFFF.
(** std [u64::saturating_add], [u64::saturating_sub] *)
Definition saturating_add (a b : N) : N := N.min (a + b) u64_max.
Definition saturating_sub (a b : N) : N := a - b.

Arguments N.add : simpl never.
Arguments N.sub : simpl never.
Arguments N.mul : simpl never.
Arguments N.div : simpl never.
Arguments N.modulo : simpl never.
Arguments N.eqb : simpl never.
Arguments N.leb : simpl never.
Arguments N.ltb : simpl never.
