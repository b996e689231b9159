(** Model of equality and hashing of names: src/signature.rs, src/header.rs. *)

From Coq Require Import List.
From Verif Require Import Base Utf8 Canon Domain.

(** What is fed to a [Hasher], as far as it tells values apart: text is written as
    its bytes with a terminator, collections with their length, variants with
    their discriminant. *)
Inductive HashInput :=
| HiText (bytes : list byte)
| HiLength (n : nat)
| HiVariant (n : nat).

(** std [Hash for str], [String], [Box<str>] *)
Definition str_hash (s : str) : list HashInput := [HiText (as_bytes s)].

(** src/signature.rs:131-135 [Hash for DomainName] *)
Definition domain_hash (d : DomainName) : list HashInput := str_hash (to_ascii_lowercase d).

(** src/signature.rs:206-210 [PartialEq for Selector] *)
Definition selector_eqb (a b : Selector) : bool := eq_ignore_ascii_case a b.

(** src/signature.rs:212-216 [Hash for Selector] *)
Definition selector_hash (s : Selector) : list HashInput := str_hash (to_ascii_lowercase s).

(** src/signature.rs:300-310: derived [PartialEq] and [Hash] for [Identity] *)
Definition local_part_eqb (a b : option str) : bool :=
  match a, b with
  | None, None => true
  | Some a, Some b => leqb a b
  | _, _ => false
  end.
Definition identity_eqb (a b : Identity) : bool :=
  local_part_eqb (id_local_part a) (id_local_part b) && domain_eqb (id_domain a) (id_domain b).
Definition identity_hash (i : Identity) : list HashInput :=
  match id_local_part i with
  | None => [HiVariant 0]
  | Some l => HiVariant 1 :: str_hash l
  end ++ domain_hash (id_domain i).

(** src/header.rs:123-127 [PartialEq<&str> for FieldName] *)
Definition name_is (n : FieldName) (s : str) : bool := eq_ignore_ascii_case n s.

(** src/header.rs:129-133 [Hash for FieldName] *)
Definition name_hash (n : FieldName) : list HashInput := str_hash (to_ascii_lowercase n).

(** src/header.rs:136-137, 209-210: derived for [FieldBody] and [HeaderFields] *)
Definition field_eqb (a b : HeaderField) : bool := name_eqb (fst a) (fst b) && leqb (snd a) (snd b).
Fixpoint header_eqb (a b : list HeaderField) : bool :=
  match a, b with
  | [], [] => true
  | x :: a, y :: b => field_eqb x y && header_eqb a b
  | _, _ => false
  end.
Definition field_hash (f : HeaderField) : list HashInput :=
  name_hash (fst f) ++ [HiLength (length (snd f)); HiText (snd f)].
Definition header_hash (h : list HeaderField) : list HashInput :=
  HiLength (length h) :: flat_map field_hash h.
