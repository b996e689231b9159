(** Specification of tag=value lists (RFC 6376, section 3.2, with erratum 5070,
    and non-ASCII characters as of RFC 8616). *)

From Verif Require Import Base Utf8 SpecText.

Definition alpha (c : char) : Prop := 65 <= c <= 90 \/ 97 <= c <= 122.
Definition alnum_ (c : char) : Prop := alpha c \/ 48 <= c <= 57 \/ c = 95.
(** tag-name = ALPHA *ALNUMPUNC *)
Definition tag_name_text (n : str) : Prop :=
  exists c n', n = c :: n' /\ alpha c /\ Forall alnum_ n'.

(** VALCHAR = %x21-3A / %x3C-7E, or non-ASCII *)
Definition valchar (c : char) : Prop := (33 <= c <= 126 /\ c <> 59) \/ 128 <= c.
(** tval *(FWS tval), that is, VALCHARs optionally separated by FWS *)
Inductive tag_value_text : str -> Prop :=
| tv_last : forall c, valchar c -> tag_value_text [c]
| tv_cons : forall c f v, valchar c -> ofws f -> tag_value_text v -> tag_value_text (c :: f ++ v).

(** [FWS] tag-name [FWS] "=" [FWS] [tag-value [FWS]] *)
Inductive tag_spec_text : str -> str -> str -> Prop :=   (* text, name, value *)
| ts_empty : forall f1 f2 f3 n,
    ofws f1 -> ofws f2 -> ofws f3 -> tag_name_text n ->
    tag_spec_text (f1 ++ n ++ f2 ++ [61] ++ f3) n []
| ts_value : forall f1 f2 f3 f4 n v,
    ofws f1 -> ofws f2 -> ofws f3 -> ofws f4 -> tag_name_text n -> tag_value_text v ->
    tag_spec_text (f1 ++ n ++ f2 ++ [61] ++ f3 ++ v ++ f4) n v.

(** tag-spec *(";" tag-spec) [";"] *)
Inductive tag_list_text : str -> list (str * str) -> Prop :=
| tl_last : forall s n v, tag_spec_text s n v -> tag_list_text s [(n, v)]
| tl_semi : forall s n v, tag_spec_text s n v -> tag_list_text (s ++ [59]) [(n, v)]
| tl_cons : forall s n v t tags, tag_spec_text s n v -> tag_list_text t tags ->
    tag_list_text (s ++ [59] ++ t) ((n, v) :: tags).

(** a piece of a colon-separated list, optionally surrounded with FWS *)
Definition surrounded (raw item : str) : Prop :=
  exists f1 f2, ofws f1 /\ ofws f2 /\ raw = f1 ++ item ++ f2
    /\ ((item = [] /\ f2 = []) \/ tag_value_text item).
Fixpoint colon_joined (l : list str) : str :=
  match l with
  | [] => []
  | [x] => x
  | x :: l' => x ++ [58] ++ colon_joined l'
  end.
Definition colon_list (value : str) (items : list str) : Prop :=
  exists raws, raws <> [] /\ value = colon_joined raws /\ Forall2 surrounded raws items
    /\ Forall (fun i => ~ In 58 i) items.
