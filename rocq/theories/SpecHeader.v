(** Specification of header field syntax. *)

From Verif Require Import Base Utf8.

(** RFC 5322: ftext *)
Definition ftext (c : char) : Prop := 33 <= c <= 126 /\ c <> 58.
Definition field_name (n : str) : Prop := n <> [] /\ Forall ftext n.

(** no control characters except TAB *)
Definition plain (l : list N) : Prop := Forall (fun b => (32 <= b \/ b = 9) /\ b <> 127) l.
(** a folded line: starts with, but does not consist of whitespace *)
Definition folded (l : list N) : Prop :=
  (exists w l', l = w :: l' /\ (w = 32 \/ w = 9)) /\ exists c, In c l /\ c <> 32 /\ c <> 9.

Definition unlines (first : list N) (more : list (list N)) : list N :=
  first ++ concat (map (fun l => [13; 10] ++ l) more).

Definition field_body (v : list byte) : Prop :=
  exists first more, v = unlines first more /\ plain first
    /\ Forall (fun l => plain l /\ folded l) more.

(** text of a header block: a field is its name, its first line, more lines *)
Definition FieldText : Type := (str * str * list str)%type.
Definition field_text_ok (f : FieldText) : Prop :=
  let '(name, first, more) := f in
  field_name name /\ plain first /\ Forall (fun l => plain l /\ folded l) more.
Definition field_text_lines (f : FieldText) : list str :=
  let '(name, first, more) := f in (name ++ [58] ++ first) :: more.
Definition field_text_value (f : FieldText) : str * list byte :=
  let '(name, first, more) := f in (name, unlines (as_bytes first) (map as_bytes more)).

(** lines separated by LF or CRLF, the last line break being optional *)
Inductive lines_text : list str -> str -> Prop :=
| lt_nil : lines_text [] []
| lt_last : forall l, l <> [] -> lines_text [l] l
| lt_cons : forall l eol ls s, eol = [10] \/ eol = [13; 10] -> lines_text ls s ->
    lines_text (l :: ls) (l ++ eol ++ s).

Definition without_cr (s : str) : str := filter (fun c => negb (c =? 13)) s.
