(** Model of src/parse.rs.  Definitions only. *)

From Verif Require Import Base.

(** src/parse.rs:19-22 [strip_suffix]: the part of [s] before its suffix
    [suffix] (simplified: lengths in characters instead of bytes, which is the
    same position because [suffix] is a suffix of [s]) *)
Definition strip_suffix (s suffix : str) : str :=
  firstn (length s - length suffix) s.

(** src/parse.rs:63-65 [is_wsp] *)
Definition is_wsp (c : char) : bool := (c =? SP) || (c =? TAB).

(** src/parse.rs:51-55 [strip_wsp] *)
Definition strip_wsp (input : str) : option str :=
  option_map (trim_start is_wsp) (strip_prefix_if is_wsp input).

(** src/parse.rs:57-61 [rstrip_wsp] *)
Definition rstrip_wsp (input : str) : option str :=
  option_map (trim_end is_wsp) (strip_suffix_if is_wsp input).

(** src/parse.rs:29-39 [strip_fws] *)
Definition strip_fws (input : str) : option str :=
  match strip_wsp input with
  | Some s =>
      match strip_prefix CRLF s with
      | Some s1 =>
          match strip_wsp s1 with
          | Some s2 => Some s2
          | None => Some s
          end
      | None => Some s
      end
  | None =>
      match strip_prefix CRLF input with
      | Some s1 => strip_wsp s1
      | None => None
      end
  end.

(** src/parse.rs:41-47 [rstrip_fws] *)
Definition rstrip_fws (input : str) : option str :=
  match rstrip_wsp input with
  | None => None
  | Some s =>
      match strip_suffix_str CRLF s with
      | Some s1 =>
          match rstrip_wsp s1 with
          | Some s2 => Some s2
          | None => Some s1
          end
      | None => Some s
      end
  end.

(** the idiom [strip_fws(s).unwrap_or(s)] *)
Definition skip_fws (s : str) : str := unwrap_or (strip_fws s) s.
