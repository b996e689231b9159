(** Model of src/header.rs.  Definitions only. *)

From Verif Require Import Base Utf8 Canon.

(** src/header.rs:91: characters allowed in a header field name *)
Definition is_name_char (c : char) : bool := is_ascii_graphic c && negb (c =? 58).

(** src/header.rs:87-96 [FieldName::new]; [None] is [HeaderFieldError] *)
Definition field_name_new (value : str) : option FieldName :=
  if is_nil value || negb (forallb is_name_char value) then None else Some value.

(** src/header.rs:129-133 [Hash for FieldName]: what is fed to the hasher *)
Definition field_name_hash_input (name : FieldName) : str := to_ascii_lowercase name.

(** src/header.rs:191-206 [split_crlf]: the pieces between CRLFs (simplified: a
    structural recursion instead of repeated searches for the first CRLF) *)
Fixpoint split_crlf (value : list byte) : list (list byte) :=
  match value with
  | [] => [[]]
  | b :: rest =>
      let other := match split_crlf rest with
                   | l :: ls => (b :: l) :: ls
                   | [] => [[b]]
                   end in
      match rest with
      | c :: rest' => if (b =? CR) && (c =? LF) then [] :: split_crlf rest' else other
      | [] => other
      end
  end.

(** src/header.rs:159: a line without control characters other than TAB *)
Definition line_chars_ok (line : list byte) : bool :=
  negb (existsb (fun b => is_ascii_control b && negb (b =? TAB)) line).

(** src/header.rs:163-172: additional checks of continuation lines *)
Definition continuation_ok (line : list byte) : bool :=
  (starts_with SP line || starts_with TAB line)
  && negb (forallb (fun b => (b =? SP) || (b =? TAB)) line).

(** src/header.rs:155-173: the loop of [FieldBody::new]; [first] is [i == 0] *)
Fixpoint body_lines_ok (first : bool) (lines : list (list byte)) : bool :=
  match lines with
  | [] => true
  | l :: ls => line_chars_ok l && (first || continuation_ok l) && body_lines_ok false ls
  end.

Definition field_body_ok (value : list byte) : bool := body_lines_ok true (split_crlf value).

(** src/header.rs:152-176 [FieldBody::new] *)
Definition field_body_new (value : list byte) : option (list byte) :=
  if field_body_ok value then Some value else None.

(** src/header.rs:213-219 [HeaderFields::new] *)
Definition header_fields_new (value : list HeaderField) : option (list HeaderField) :=
  if is_nil value then None else Some value.

(** src/header.rs:224-229: conversion of the pairs, stopping at the first error *)
Fixpoint convert_fields (value : list (str * list byte)) : option (list HeaderField) :=
  match value with
  | [] => Some []
  | (name, body) :: rest =>
      match field_name_new name with
      | None => None
      | Some n =>
          match field_body_new body with
          | None => None
          | Some b => option_map (cons (n, b)) (convert_fields rest)
          end
      end
  end.

(** src/header.rs:221-231 [HeaderFields::from_vec] *)
Definition header_fields_from_vec (value : list (str * list byte)) : option (list HeaderField) :=
  match convert_fields value with
  | None => None
  | Some fs => header_fields_new fs
  end.

(** src/header.rs:310-312 [is_continuation_line] *)
Definition is_continuation_line (s : str) : bool := starts_with SP s || starts_with TAB s.

(** src/header.rs:314-321 [split_header_field] *)
Definition split_header_field (s : str) : option (FieldName * list byte) :=
  match split_once 58 s with
  | None => None
  | Some (name, value) =>
      match field_name_new name with
      | None => None
      | Some n => Some (n, as_bytes value)
      end
  end.

(** std [str::lines]: pieces terminated by LF, an optional CR before the LF
    dropped; a final piece without LF is kept as is unless empty (Rust >= 1.77;
    earlier versions also dropped a final CR of such a piece) *)
Fixpoint split_lf (s : str) : list str * str :=   (* terminated lines, rest *)
  match s with
  | [] => ([], [])
  | c :: s' =>
      let '(ls, r) := split_lf s' in
      if c =? LF then ([] :: ls, r)
      else match ls with
           | l :: ls' => ((c :: l) :: ls', r)
           | [] => ([], c :: r)
           end
  end.
Definition str_lines (s : str) : list str :=
  let '(ls, r) := split_lf s in
  map (fun l => unwrap_or (strip_suffix_str [CR] l) l) ls ++ (if is_nil r then [] else [r]).

(** src/header.rs:290-304: the loop over the remaining lines *)
Fixpoint parse_lines (name : FieldName) (value : list byte) (lines : list str)
    : option (list HeaderField) :=
  match lines with
  | [] => option_map (fun v => [(name, v)]) (field_body_new value)
  | line :: lines' =>
      if is_continuation_line line then parse_lines name (value ++ CRLF ++ as_bytes line) lines'
      else
        match split_header_field line with
        | None => None
        | Some (next_name, next_value) =>
            match field_body_new value with
            | None => None
            | Some v => option_map (cons (name, v)) (parse_lines next_name next_value lines')
            end
        end
  end.

(** src/header.rs:279-307 [HeaderFields::from_str] *)
Definition header_fields_from_str (s : str) : option (list HeaderField) :=
  match str_lines s with
  | [] => None
  | first :: lines =>
      if is_continuation_line first then None
      else
        match split_header_field first with
        | None => None
        | Some (name, value) =>
            match parse_lines name value lines with
            | None => None
            | Some hs => header_fields_new hs
            end
        end
  end.
