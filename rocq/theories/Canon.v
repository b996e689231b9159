(** Model of src/canonicalize.rs.  Definitions only. *)

From Verif Require Import Base Utf8.

(** src/signature.rs:547-553 [CanonicalizationAlgorithm] *)
Inductive CanonAlg := Simple | Relaxed.

Definition canon_alg_eqb (a b : CanonAlg) : bool :=
  match a, b with
  | Simple, Simple | Relaxed, Relaxed => true
  | _, _ => false
  end.

(** ** Header canonicalization *)

(** src/header.rs:42,73,137: a header field is a pair of a [FieldName] (a
    string) and a [FieldBody] (bytes). *)
Notation FieldName := (list N) (only parsing).
Notation HeaderField := (list N * list N)%type (only parsing).

(** src/header.rs:117-121 [PartialEq for FieldName] *)
Definition name_eqb (a b : FieldName) : bool := eq_ignore_ascii_case a b.

(** src/canonicalize.rs:90-92 [is_space] *)
Definition is_space (b : byte) : bool :=
  (b =? 32) || (b =? 9) || (b =? 13) || (b =? 10).

(** src/canonicalize.rs:94-102 [trim_space]: strips from the front, then from the back *)
Definition trim_space (value : list byte) : list byte :=
  trim_end is_space (trim_start is_space value).

(** src/canonicalize.rs:108-121: the compressing loop *)
Fixpoint compress_space (compressing : bool) (value : list byte) : list byte :=
  match value with
  | [] => []
  | b :: value' =>
      if is_space b then
        if compressing then compress_space true value'
        else SP :: compress_space true value'
      else b :: compress_space false value'
  end.

(** src/canonicalize.rs:89-122 [canonicalize_header_relaxed] (the
    [debug_assert!] is not part of release builds; see [Dev.v]) *)
Definition canonicalize_header_relaxed (value : list byte) : list byte :=
  compress_space false (trim_space value).

(** src/canonicalize.rs:66-87 [canonicalize_header]; returns what is appended to
    the result vector *)
Definition canonicalize_header (alg : CanonAlg) (name : str) (value : list byte) : list byte :=
  match alg with
  | Simple => as_bytes name ++ [58] ++ value
  | Relaxed => as_bytes (to_ascii_lowercase name) ++ [58] ++ canonicalize_header_relaxed value
  end.

Definition mem_nat (i : nat) (l : list nat) : bool := existsb (Nat.eqb i) l.

(** src/canonicalize.rs:40-56: the inner loop over the reversed, enumerated
    header fields, skipping processed indexes, up to the first match *)
Fixpoint find_unprocessed (i : nat) (rev_headers : list HeaderField)
    (processed : list nat) (selected : FieldName) : option (nat * HeaderField) :=
  match rev_headers with
  | [] => None
  | f :: rest =>
      if negb (mem_nat i processed) && name_eqb (fst f) selected then Some (i, f)
      else find_unprocessed (S i) rest processed selected
  end.

(** src/canonicalize.rs:39-57: the outer loop over the selected names *)
Fixpoint canon_headers_loop (alg : CanonAlg) (rev_headers : list HeaderField)
    (processed : list nat) (selected : list FieldName) : list byte :=
  match selected with
  | [] => []
  | sel :: selected' =>
      match find_unprocessed 0 rev_headers processed sel with
      | Some (i, (name, val)) =>
          canonicalize_header alg name val ++ CRLF
          ++ canon_headers_loop alg rev_headers (i :: processed) selected'
      | None => canon_headers_loop alg rev_headers processed selected'
      end
  end.

(** src/canonicalize.rs:31-60 [canonicalize_headers] *)
Definition canonicalize_headers (alg : CanonAlg) (headers : list HeaderField)
    (selected : list FieldName) : list byte :=
  canon_headers_loop alg (rev headers) [] selected.

(** ** Body canonicalization *)

(** src/canonicalize.rs:126-133 [CanonState] *)
Inductive CanonState := SInit | SCrLf | SCr | SWsp | SWspCr | SByte.

(** src/canonicalize.rs:137-142 [BodyCanonicalizer] *)
Record BodyCanon := mkBodyCanon {
  bc_kind : CanonAlg;
  bc_state : CanonState;
  bc_blank_line : bool;
  bc_empty_lines : nat
}.

(** src/canonicalize.rs:145-152 [BodyCanonicalizer::new] *)
Definition bc_new (kind : CanonAlg) : BodyCanon := mkBodyCanon kind SInit true 0.

Definition set_state (st : CanonState) (bc : BodyCanon) : BodyCanon :=
  mkBodyCanon (bc_kind bc) st (bc_blank_line bc) (bc_empty_lines bc).

(** [n] copies of CRLF *)
Fixpoint crlfs (n : nat) : list byte :=
  match n with
  | O => []
  | S n' => CRLF ++ crlfs n'
  end.

(** src/canonicalize.rs:350-356 [flush_empty_lines]: output, new state *)
Definition flush_empty_lines (bc : BodyCanon) : list byte * BodyCanon :=
  (crlfs (bc_empty_lines bc), mkBodyCanon (bc_kind bc) (bc_state bc) false 0).

(** src/canonicalize.rs:178-187, 242-251, 264-273: LF after CR *)
Definition line_end (bc : BodyCanon) : list byte * BodyCanon :=
  if bc_blank_line bc then
    ([], mkBodyCanon (bc_kind bc) SCrLf true (S (bc_empty_lines bc)))
  else
    (CRLF, mkBodyCanon (bc_kind bc) SCrLf true (bc_empty_lines bc)).

(** src/canonicalize.rs:166-206: body of the loop of [canon_chunk_simple] *)
Definition step_simple (bc : BodyCanon) (b : byte) : outcome (list byte * BodyCanon) :=
  match bc_state bc with
  | SInit | SCrLf =>
      if b =? CR then Val ([], set_state SCr bc)
      else
        let '(out, bc1) := flush_empty_lines bc in
        Val (out ++ [b], set_state SByte bc1)
  | SCr =>
      if b =? LF then Val (line_end bc)
      else
        let '(out, bc1) := flush_empty_lines bc in
        if negb (b =? CR) then Val (out ++ [CR] ++ [b], set_state SByte bc1)
        else Val (out ++ [CR], bc1)
  | SByte =>
      if b =? CR then Val ([], set_state SCr bc)
      else Val ([b], bc)
  | SWsp | SWspCr => Panic
  end.

(** src/canonicalize.rs:212-214 [is_wsp] *)
Definition is_wsp_byte (b : byte) : bool := (b =? TAB) || (b =? SP).

(** src/canonicalize.rs:218-298: body of the loop of [canon_chunk_relaxed] *)
Definition step_relaxed (bc : BodyCanon) (b : byte) : outcome (list byte * BodyCanon) :=
  match bc_state bc with
  | SInit | SCrLf =>
      if is_wsp_byte b then Val ([], set_state SWsp bc)
      else if b =? CR then Val ([], set_state SCr bc)
      else
        let '(out, bc1) := flush_empty_lines bc in
        Val (out ++ [b], set_state SByte bc1)
  | SWsp =>
      if b =? CR then Val ([], set_state SWspCr bc)
      else if negb (is_wsp_byte b) then
        let '(out, bc1) := flush_empty_lines bc in
        Val (out ++ [SP] ++ [b], set_state SByte bc1)
      else Val ([], bc)
  | SCr =>
      if b =? LF then Val (line_end bc)
      else
        let '(out, bc1) := flush_empty_lines bc in
        if is_wsp_byte b then Val (out ++ [CR], set_state SWsp bc1)
        else if negb (b =? CR) then Val (out ++ [CR] ++ [b], set_state SByte bc1)
        else Val (out ++ [CR], bc1)
  | SWspCr =>
      if b =? LF then Val (line_end bc)
      else
        let '(out, bc1) := flush_empty_lines bc in
        if b =? CR then Val (out ++ [SP] ++ [CR], set_state SCr bc1)
        else if is_wsp_byte b then Val (out ++ [SP] ++ [CR], set_state SWsp bc1)
        else Val (out ++ [SP] ++ [CR] ++ [b], set_state SByte bc1)
  | SByte =>
      if is_wsp_byte b then Val ([], set_state SWsp bc)
      else if b =? CR then Val ([], set_state SCr bc)
      else Val ([b], bc)
  end.

(** src/canonicalize.rs:156-161 [canonicalize_chunk] and the [for] loops of
    [canon_chunk_simple] (163-209) and [canon_chunk_relaxed] (211-301) *)
Definition canon_step (bc : BodyCanon) (b : byte) : outcome (list byte * BodyCanon) :=
  match bc_kind bc with
  | Simple => step_simple bc b
  | Relaxed => step_relaxed bc b
  end.

Fixpoint canonicalize_chunk (bc : BodyCanon) (bytes : list byte)
    : outcome (list byte * BodyCanon) :=
  match bytes with
  | [] => Val ([], bc)
  | b :: bytes' =>
      let! (out, bc1) := canon_step bc b in
      let! (out', bc2) := canonicalize_chunk bc1 bytes' in
      Val (out ++ out', bc2)
  end.

(** src/canonicalize.rs:303-346 [finish] *)
Definition bc_finish (bc : BodyCanon) : outcome (list byte) :=
  match bc_kind bc with
  | Simple =>
      match bc_state bc with
      | SInit => Val CRLF
      | SCrLf => Val []
      | SCr => let '(out, _) := flush_empty_lines bc in Val (out ++ [CR] ++ CRLF)
      | SByte => Val CRLF
      | SWsp | SWspCr => Panic
      end
  | Relaxed =>
      match bc_state bc with
      | SInit | SCrLf => Val []
      | SCr => let '(out, _) := flush_empty_lines bc in Val (out ++ [CR] ++ CRLF)
      | SWsp => Val CRLF
      | SWspCr => let '(out, _) := flush_empty_lines bc in Val (out ++ [SP] ++ [CR] ++ CRLF)
      | SByte => Val CRLF
      end
  end.

(** Feeding a sequence of chunks: how clients use the canonicalizer
    (src/canonicalize.rs:461-468 [canonicalize_chunks] in its tests). *)
Fixpoint canonicalize_chunks (bc : BodyCanon) (chunks : list (list byte))
    : outcome (list byte * BodyCanon) :=
  match chunks with
  | [] => Val ([], bc)
  | c :: chunks' =>
      let! (out, bc1) := canonicalize_chunk bc c in
      let! (out', bc2) := canonicalize_chunks bc1 chunks' in
      Val (out ++ out', bc2)
  end.

(** A complete canonicalization: new, any number of chunks, finish. *)
Definition canonicalize_body (alg : CanonAlg) (chunks : list (list byte)) : outcome (list byte) :=
  let! (out, bc) := canonicalize_chunks (bc_new alg) chunks in
  let! fin := bc_finish bc in
  Val (out ++ fin).
