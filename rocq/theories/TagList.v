(** Model of src/tag_list.rs.  Definitions only. *)

From Verif Require Import Base Utf8 Canon Header Parse QP Base64.

(** src/tag_list.rs:32-35 [ParseTagListError] *)
Inductive ParseTagListError := DuplicateTag | TagListSyntax.

(** src/tag_list.rs:49-52 [TagSpec] *)
Record TagSpec := mkTag { tag_name : str; tag_value : str }.

(** src/tag_list.rs:146-157 *)
Definition is_alpha (c : char) : bool := is_ascii_alphabetic c.
Definition is_alphanum (c : char) : bool := is_ascii_alphanumeric c || (c =? 95).
Definition is_tval_char (c : char) : bool :=
  in_range 33 58 c || in_range 60 126 c || negb (is_ascii c).

(** src/tag_list.rs:123-128 [strip_tag_name] *)
Definition strip_tag_name (value : str) : option (str * str) :=
  match strip_prefix_if is_alpha value with
  | None => None
  | Some s =>
      let s := trim_start is_alphanum s in
      Some (s, strip_suffix value s)
  end.

(** src/tag_list.rs:111-121 [strip_tag_name_and_equals] *)
Definition strip_tag_name_and_equals (val : str) : option (str * str) :=
  let s := skip_fws val in
  match strip_tag_name s with
  | None => None
  | Some (s, name) =>
      let s := skip_fws s in
      match strip_prefix_char 61 s with
      | None => None
      | Some s => Some (s, name)
      end
  end.

(** src/tag_list.rs:132-135 [strip_tval] *)
Definition strip_tval (s : str) : option str :=
  option_map (trim_start is_tval_char) (strip_prefix_if is_tval_char s).

(** src/tag_list.rs:139-141; [fuel] bounds the iterations by the length of the
    input (each one consumes characters) *)
Fixpoint strip_tvals (fuel : nat) (s : str) : str :=
  match fuel with
  | O => s
  | S fuel' =>
      match strip_fws s with
      | None => s
      | Some s1 =>
          match strip_tval s1 with
          | None => s
          | Some snext => strip_tvals fuel' snext
          end
      end
  end.

(** src/tag_list.rs:131-144 [strip_tag_value] *)
Definition strip_tag_value (value : str) : option (str * str) :=
  match strip_tval value with
  | None => None
  | Some s =>
      let s := strip_tvals (length s) s in
      Some (s, strip_suffix value s)
  end.

(** src/tag_list.rs:94-108 [strip_tag_spec] *)
Definition strip_tag_spec (val : str) : option (str * TagSpec) :=
  match strip_tag_name_and_equals val with
  | None => None
  | Some (s, name) =>
      let s := skip_fws s in
      match strip_tag_value s with
      | Some (s, value) => Some (skip_fws s, mkTag name value)
      | None => Some (s, mkTag name [])
      end
  end.

(** src/tag_list.rs:84-87; [fuel] bounds the iterations by the input length *)
Fixpoint strip_more_tags (fuel : nat) (s : str) : str * list TagSpec :=
  match fuel with
  | O => (s, [])
  | S fuel' =>
      match strip_prefix_char 59 s with
      | None => (s, [])
      | Some s1 =>
          match strip_tag_spec s1 with
          | None => (s, [])
          | Some (snext, t) =>
              let '(s', ts) := strip_more_tags fuel' snext in (s', t :: ts)
          end
      end
  end.

(** src/tag_list.rs:79-92 [strip_tag_list] *)
Definition strip_tag_list (val : str) : option (str * list TagSpec) :=
  match strip_tag_spec val with
  | None => None
  | Some (s, t) =>
      let '(s, ts) := strip_more_tags (length s) s in
      let s := unwrap_or (strip_prefix_char 59 s) s in
      Some (s, t :: ts)
  end.

(** src/tag_list.rs:68-71: some name occurs again after itself *)
Fixpoint has_dup (seen : list str) (tags : list TagSpec) : bool :=
  match tags with
  | [] => false
  | t :: ts => if mem_str (tag_name t) seen then true else has_dup (tag_name t :: seen) ts
  end.

(** src/tag_list.rs:65-76 [TagList::from_str] *)
Definition tag_list_from_str (s : str) : result (list TagSpec) ParseTagListError :=
  match strip_tag_list s with
  | Some (rest, tag_list) =>
      if is_nil rest then
        if has_dup [] tag_list then Err DuplicateTag else Ok tag_list
      else Err TagListSyntax
  | None => Err TagListSyntax
  end.

(** src/tag_list.rs:222-225 [trim_surrounding_fws] *)
Definition trim_surrounding_fws (s : str) : str :=
  let s := skip_fws s in unwrap_or (rstrip_fws s) s.

(** src/tag_list.rs:159-163 [parse_colon_separated_value] *)
Definition parse_colon_separated_value (value : str) : list str :=
  map trim_surrounding_fws (split_on 58 value).

(** src/tag_list.rs:171 *)
Definition is_fws_char (c : char) : bool := (c =? SP) || (c =? TAB) || (c =? CR) || (c =? LF).

(** src/tag_list.rs:165-175 [parse_base64_value]; [None] is a syntax error *)
Definition parse_base64_value (value : str) : option (list byte) :=
  decode_base64 (filter (fun c => negb (is_fws_char c)) value).

(** src/tag_list.rs:177-181 [parse_qp_section_value] *)
Definition parse_qp_section_value (value : str) : outcome (option (list byte)) :=
  decode_qp_section value.

(** src/tag_list.rs:183-187 [parse_quoted_printable_value] *)
Definition parse_quoted_printable_value (value : str) : outcome (option (list byte)) :=
  qp_decode value.

(** src/tag_list.rs:189-212 [parse_quoted_printable_header_field] *)
Definition parse_quoted_printable_header_field (value : str)
    : outcome (option (FieldName * list byte)) :=
  let! r := qp_decode value in
  Val (match r with
       | None => None
       | Some val =>
           match split_once 58 val with
           | None => None
           | Some (name, value) =>
               match from_utf8 name with
               | None => None
               | Some name =>
                   match field_name_new name with
                   | None => None
                   | Some name => Some (name, value)
                   end
               end
           end
       end).

(** src/tag_list.rs:214-216 [is_tag_name] *)
Definition is_tag_name (s : str) : bool :=
  match strip_tag_name s with
  | Some (rest, _) => is_nil rest
  | None => false
  end.

(** src/tag_list.rs:218-220 [is_tag_value] *)
Definition is_tag_value (s : str) : bool :=
  is_nil s
  || match strip_tag_value s with
     | Some (rest, _) => is_nil rest
     | None => false
     end.
