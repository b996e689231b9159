(** Specification of what the Hickory resolver says. *)

From Coq Require Import List.
From Verif Require Import Base Verify Hickory.

(** the names and the texts of records, however split, are all that matters *)
Definition same_dns (h h' : Hickory) : Prop := forall j j' name,
  match hk_from_ascii h name, hk_from_ascii h' name with
  | None, None => True
  | Some n, Some n' =>
      match hk_txt_lookup h j n, hk_txt_lookup h' j' n' with
      | Ok txts, Ok txts' => map (@concat _) txts = map (@concat _) txts'
      | Err e, Err e' => hk_no_records_found h e = hk_no_records_found h' e' /\ hk_io_kind h e = hk_io_kind h' e'
      | _, _ => False
      end
  | _, _ => False
  end.
