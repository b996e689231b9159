(** Specification: a resolver that answers each name in one way. *)

From Coq Require Import List NArith.
From Verif Require Import Base Canon Crypto Verify SpecVerify.
Import ListNotations.
Open Scope N_scope.

(** the same world, where the answer for a name is always that in [zone] *)
Definition settled (w : World) (zone : str -> IoResult (list (IoResult (list byte)))) : World :=
  mkWorld (mkResolver (fun _ => zone) (rs_latency (w_resolver w))) (w_clock w) (w_query_order w) (w_hasher_order w).

(** [zone] has nothing that the resolver of [w] would not say at some time *)
Definition said (w : World) (zone : str -> IoResult (list (IoResult (list byte)))) : Prop :=
  forall name, exists n, zone name = rs_answer (w_resolver w) n name.

(** Key records that signatures need, when named alike, are those of the same domain and
    selector. *)
Definition names_apart (E : Env) (headers : list HeaderField) (config : Config) (clock : nat -> N) : Prop :=
  forall p p', pair_needed E headers config clock p -> pair_needed E headers config clock p' -> key_name p = key_name p' -> p = p'.
