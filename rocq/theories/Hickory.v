(** Model of src/verifier/lookup/hickory_resolver.rs. *)

From Coq Require Import List.
From Verif Require Import Base Verify.

(** Crate [hickory_resolver]: reading names, TXT lookups (the [n]-th one made, for
    the name given), and its errors.  A TXT record is a list of character strings. *)
Record Hickory := mkHickory {
  hk_name : Type;
  hk_error : Type;
  hk_from_ascii : str -> option hk_name;                                          (* Name::from_ascii *)
  hk_txt_lookup : nat -> hk_name -> result (list (list (list byte))) hk_error;    (* txt_lookup, txt_data *)
  hk_no_records_found : hk_error -> bool;                                         (* ResolveErrorKind::NoRecordsFound *)
  hk_io_kind : hk_error -> IoErrorKind;                                           (* From<ResolveError> for io::Error *)
  hk_latency : nat -> str -> N
}.

(** src/verifier/lookup/hickory_resolver.rs:29-48 [lookup_txt] *)
Definition hickory_lookup_txt (h : Hickory) (n : nat) (domain : str) : IoResult (list (IoResult (list byte))) :=
  match hk_from_ascii h domain with
  | None => Err InvalidInput
  | Some name =>
      match hk_txt_lookup h n name with
      | Err e => Err (if hk_no_records_found h e then NotFound else hk_io_kind h e)
      | Ok lookup => Ok (map (fun txt => Ok (concat txt)) lookup)
      end
  end.

Definition hickory_resolver (h : Hickory) : Resolver := mkResolver (hickory_lookup_txt h) (hk_latency h).
