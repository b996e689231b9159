(** Specification of canonicalization, after RFC 6376 section 3.4.  Written
    independently of the model: nothing here refers to the functions of
    [Canon.v] (only to the types of header fields). *)

From Verif Require Import Base Canon.

(** ** Bodies *)

(** The CRLF-separated lines of a body; the last one is what follows the last
    CRLF (possibly nothing). *)
Fixpoint lines (s : list byte) : list (list byte) :=
  match s with
  | [] => [[]]
  | c :: s' =>
      match lines s' with
      | [] => [[c]]
      | l :: ls =>
          match s' with
          | d :: s'' =>
              if (c =? 13) && (d =? 10) then [] :: lines s'' else (c :: l) :: ls
          | [] => (c :: l) :: ls
          end
      end
  end.

Definition wsp (c : byte) : bool := (c =? 32) || (c =? 9).

(** Section 3.4.4: "Ignore all whitespace at the end of lines"; "Reduce all
    sequences of WSP within a line to a single SP character". *)
Fixpoint relaxed_line (l : list byte) : list byte :=
  match l with
  | [] => []
  | c :: l' =>
      if wsp c then
        if forallb wsp l' then []                       (* whitespace at end of line *)
        else match l' with
             | d :: _ => if wsp d then relaxed_line l'  (* not the last of its run *)
                         else 32 :: relaxed_line l'
             | [] => []
             end
      else c :: relaxed_line l'
  end.

(** "Ignore all empty lines at the end of the message body" *)
Fixpoint drop_trailing_empty (ls : list (list byte)) : list (list byte) :=
  match ls with
  | [] => []
  | l :: ls' =>
      match drop_trailing_empty ls' with
      | [] => match l with [] => [] | _ => [l] end
      | r => l :: r
      end
  end.

(** each line terminated by CRLF *)
Definition terminate (ls : list (list byte)) : list byte := concat (map (fun l => l ++ [13; 10]) ls).

(** Section 3.4.3: "converts *CRLF at the end of the body to a single CRLF" *)
Fixpoint strip_rev (s : list byte) : list byte :=
  match s with
  | c :: t => match t with
              | d :: s' => if (c =? 10) && (d =? 13) then strip_rev s' else s
              | [] => s
              end
  | [] => []
  end.
Definition strip_trailing_crlfs (s : list byte) : list byte := rev (strip_rev (rev s)).

Definition rfc_simple_body (body : list byte) : list byte := strip_trailing_crlfs body ++ [13; 10].

(** Section 3.4.4 *)
Definition rfc_relaxed_body (body : list byte) : list byte :=
  terminate (drop_trailing_empty (map relaxed_line (lines body))).

(** ** What the code does instead in two corner cases *)

(** a body consisting of one or more CRLFs only *)
Definition only_crlfs (body : list byte) : bool :=
  negb (is_nil body) && is_nil (strip_trailing_crlfs body).

(** a body whose text after the last CRLF consists of one or more WSP only *)
Definition ends_in_wsp_line (body : list byte) : bool :=
  let l := last (lines body) [] in negb (is_nil l) && forallb wsp l.

Definition impl_simple_body (body : list byte) : list byte :=
  if only_crlfs body then [] else rfc_simple_body body.

Definition impl_relaxed_body (body : list byte) : list byte :=
  if ends_in_wsp_line body then rfc_relaxed_body body ++ [13; 10] else rfc_relaxed_body body.

(** ** Header fields *)

(** Words of a header field value: maximal runs of bytes other than
    SP, TAB, CR, LF. *)
Definition white (b : byte) : bool := (b =? 32) || (b =? 9) || (b =? 13) || (b =? 10).

Fixpoint words_from (cur : list byte) (s : list byte) : list (list byte) :=
  match s with
  | [] => match cur with [] => [] | _ => [cur] end
  | c :: s' =>
      if white c then match cur with [] => words_from [] s' | _ => cur :: words_from [] s' end
      else words_from (cur ++ [c]) s'
  end.
Definition words (s : list byte) : list (list byte) := words_from [] s.

Fixpoint unwords (ws : list (list byte)) : list byte :=
  match ws with
  | [] => []
  | [w] => w
  | w :: ws' => w ++ [32] ++ unwords ws'
  end.

(** lower-case version of US-ASCII text *)
Definition lower (s : list N) : list N :=
  map (fun c => if (65 <=? c) && (c <=? 90) then c + 32 else c) s.

Definition rfc_relaxed_header (name : list byte) (value : list byte) : list byte :=
  lower name ++ [58] ++ unwords (words value).

(** The [k]-th (from 1) field from the bottom with the given name. *)
Definition same_name (a b : FieldName) : Prop := lower a = lower b.

Definition same_nameb (a b : FieldName) : bool := leqb (lower a) (lower b).

Definition kth_from_bottom (headers : list HeaderField) (name : FieldName) (k : nat)
    : option HeaderField :=
  nth_error (filter (fun f => same_nameb (fst f) name) (rev headers)) (k - 1).

(** Number of occurrences of a name among names. *)
Definition occurrences (name : FieldName) (names : list FieldName) : nat :=
  length (filter (fun n => same_nameb n name) names).

(** The fields contributed by a list of signed names, when the names [before]
    have been dealt with already: for each name, the field counted from the
    bottom by how often the name has occurred so far. *)
Fixpoint contributed (headers : list HeaderField) (before names : list FieldName)
    : list HeaderField :=
  match names with
  | [] => []
  | n :: names' =>
      match kth_from_bottom headers n (S (occurrences n before)) with
      | Some f => [f]
      | None => []
      end ++ contributed headers (before ++ [n]) names'
  end.

(** ** Shape of canonical bodies *)

Definition clean_line (l : list byte) : Prop :=
  ~ In 9 l                                         (* no TAB *)
  /\ (forall a b, l <> a ++ [32; 32] ++ b)          (* no two SP in a row *)
  /\ (forall a, l <> a ++ [32]).                    (* no SP at the end *)

Definition ends_in_crlf (s : list byte) : Prop := exists a, s = a ++ [13; 10].
Definition ends_in_empty_line (s : list byte) : Prop :=
  s = [13; 10] \/ exists a, s = a ++ [13; 10; 13; 10].

(** Header field names (RFC 5322 section 2.2): printable US-ASCII except colon. *)
Definition valid_name (n : list N) : Prop :=
  n <> [] /\ Forall (fun c => 33 <= c /\ c <= 126 /\ c <> 58) n.

(** Canonical form of one field. *)
Definition canonical_field (alg : CanonAlg) (f : HeaderField) : list byte :=
  match alg with
  | Simple => fst f ++ [58] ++ snd f
  | Relaxed => rfc_relaxed_header (fst f) (snd f)
  end.

(** RFC 6376 section 3.7: the header part of the hash input for a list of signed
    names: contributed fields in order, canonicalized, each terminated by CRLF. *)
Definition header_hash_input (alg : CanonAlg) (headers : list HeaderField)
    (names : list FieldName) : list byte :=
  concat (map (fun f => canonical_field alg f ++ [13; 10]) (contributed headers [] names)).

(** Two headers agree on what a list of signed names covers: for each name, the
    same bottom-most fields, up to the number of occurrences of the name. *)
Definition agree_on (names : list FieldName) (h1 h2 : list HeaderField) : Prop :=
  forall n, In n names ->
    firstn (occurrences n names) (filter (fun f => same_nameb (fst f) n) (rev h1))
    = firstn (occurrences n names) (filter (fun f => same_nameb (fst f) n) (rev h2)).
