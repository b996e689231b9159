(** Specification of the lines of the signer's header field, where the values of
    additional tags may have line breaks of their own. *)

From Coq Require Import String List.
From Verif Require Import Base Utf8 Canon Format SpecText SpecCanon SpecHeader SpecFormat SpecOutput.
Import ListNotations.
Open Scope N_scope.

(** A line within the width, or with a semicolon just beyond it, or consisting of
    the header name, or one of the lines of an indented piece of text that cannot
    be broken other than by the line breaks it contains (maybe with a semicolon). *)
Inductive folded_ok (width : nat) (indent name : str) (ps : list Piece) : str -> Prop :=
| fo_fits : forall l, (length l <= width)%nat -> folded_ok width indent name ps l
| fo_semicolon : forall l, length l = width -> folded_ok width indent name ps (l ++ [59])
| fo_name : folded_ok width indent name ps (name ++ [58])
| fo_piece : forall p stop first more l, In p ps -> stop = [] \/ stop = [59] ->
    indent ++ p_text p ++ stop = unlines first more -> Forall no_line_break (first :: more) ->
    In l (first :: more) -> folded_ok width indent name ps l.

(** the additional tags written before b= have no line breaks in their values *)
Definition breaks_after_b (u : USig) (f : OutputFormat) : Prop :=
  forall before after n v, tag_names u f = before ++ lit "b" :: after ->
    In n before -> In (n, v) (u_ext_tags u) -> one_line v.
