(** Specification of the header text that a signer writes: a sequence of pieces
    of text laid out greedily on lines of limited width. *)

From Coq Require Import String List Permutation.
From Verif Require Import Base Utf8 Canon BodyHash Domain Signature Format
  SpecText SpecCanon SpecDomain SpecSig.

(** ** Layout *)

(** How a piece is attached to the text before it: at the start of a tag, with a
    space; inside a tag, with nothing; in both cases a line break is used instead
    if the piece would go beyond the width.  A glued piece is never preceded by a
    line break. *)
Inductive Joint := Start | Inner | Glued.
(** [p_extra]: room desired after the text *)
Record Piece := mkPiece { p_joint : Joint; p_text : str; p_extra : nat }.

Definition start (t : str) := mkPiece Start t 0.
Definition inner (t : str) := mkPiece Inner t 0.
Definition glued (t : str) := mkPiece Glued t 0.
Definition letters (s : str) : list Piece := map (fun c => inner [c]) s.

Section Layout.
Variable width : nat.
Variable indent : str.

(** Attach [p] to a line with [i] characters; the text added, and the number of
    characters then in the last line. *)
Definition attach (i : nat) (p : Piece) : str * nat :=
  let n := length (p_text p) in
  let fits sep := Nat.leb (i + length sep + n + p_extra p) width in
  let on_line sep := (sep ++ p_text p, (i + length sep + n)%nat) in
  let on_next := ([13; 10] ++ indent ++ p_text p, (length indent + n)%nat) in
  match p_joint p with
  | Start => if fits [32] then on_line [32] else on_next
  | Inner => if fits [] then on_line [] else on_next
  | Glued => on_line []
  end.

Fixpoint layout (i : nat) (ps : list Piece) : str * nat :=
  match ps with
  | [] => ([], i)
  | p :: ps' =>
      let '(t, i1) := attach i p in
      let '(t', i2) := layout i1 ps' in
      (t ++ t', i2)
  end.

End Layout.

(** ** Tags *)

(** the decimal digits of a number *)
Definition decimal_text (t : str) (n : N) : Prop :=
  t <> [] /\ Forall (fun c => 48 <= c <= 57) t /\ decimal t = n /\ (t = [48] \/ hd 48 t <> 48).

(** the A-label or U-label form of a name, unless only case differs *)
Definition written_form (idna : Idna) (ascii : bool) (d t : str) : Prop :=
  exists x, (if ascii then idna_to_ascii idna d = Some x else fst (idna_to_unicode idna d) = x)
    /\ (lower d = lower x /\ t = d \/ lower d <> lower x /\ t = x).

Definition alg_text (a : SigningAlg) : str :=
  lit match a with
      | RsaSha256 => "rsa-sha256"
      | Ed25519Sha256 => "ed25519-sha256"
      | RsaSha1 => "rsa-sha1"
      end.

Definition canon_text (c : Canonicalization) : str :=
  lit match c_header c, c_body c with
      | Simple, Simple => "simple/simple"
      | Simple, Relaxed => "simple/relaxed"
      | Relaxed, Simple => "relaxed"
      | Relaxed, Relaxed => "relaxed/relaxed"
      end.

(** every name with a colon, the last one with [stop] *)
Fixpoint with_colons (stop : str) (names : list str) : list str :=
  match names with
  | [] => []
  | [n] => [n ++ stop]
  | n :: ns => (n ++ [58]) :: with_colons stop ns
  end.

(** the pieces of copied header fields, after the first *)
Inductive copied_pieces (ascii : bool) : list (str * list byte) -> list Piece -> Prop :=
| cp_nil : copied_pieces ascii [] []
| cp_cons : forall n v q fs ps, qp_encoding (Some 124) ascii v q -> copied_pieces ascii fs ps ->
    copied_pieces ascii ((n, v) :: fs) (inner [124] :: inner (n ++ [58]) :: letters q ++ ps).

Section Tags.
Variable idna : Idna.
Variable s : USig.
Variable ascii : bool.
Variable b : str.            (* the signature in base64 *)

(** the pieces of a tag; [stop] is what ends the tag *)
Inductive tag_pieces (stop : str) : str -> list Piece -> Prop :=
| tp_v : tag_pieces stop (lit "v") [start (lit "v=1" ++ stop)]
| tp_a : tag_pieces stop (lit "a") [start (lit "a=" ++ alg_text (u_algorithm s) ++ stop)]
| tp_c : tag_pieces stop (lit "c") [start (lit "c=" ++ canon_text (u_canonicalization s) ++ stop)]
| tp_d : forall d, written_form idna ascii (u_domain s) d ->
    tag_pieces stop (lit "d") [start (lit "d=" ++ d ++ stop)]
| tp_s : forall d, written_form idna ascii (u_selector s) d ->
    tag_pieces stop (lit "s") [start (lit "s=" ++ d ++ stop)]
| tp_i : forall i d l, u_identity s = Some i -> written_form idna ascii (id_domain i) d ->
    qp_encoding None ascii (as_bytes (unwrap_or (id_local_part i) [])) l ->
    tag_pieces stop (lit "i") [start (lit "i=" ++ l ++ [64] ++ d ++ stop)]
| tp_l : forall n t, u_body_length s = Some n -> decimal_text t n ->
    tag_pieces stop (lit "l") [start (lit "l=" ++ t ++ stop)]
| tp_t : forall n t, u_timestamp s = Some n -> decimal_text t n ->
    tag_pieces stop (lit "t") [start (lit "t=" ++ t ++ stop)]
| tp_x : forall n t, u_expiration s = Some n -> decimal_text t n ->
    tag_pieces stop (lit "x") [start (lit "x=" ++ t ++ stop)]
| tp_h : forall t ts, with_colons stop (u_signed_headers s) = t :: ts ->
    tag_pieces stop (lit "h") (start (lit "h=" ++ t) :: map inner ts)
| tp_bh : forall t, base64 (u_body_hash s) t ->
    tag_pieces stop (lit "bh") (mkPiece Start (lit "bh=") 1 :: letters t ++ [glued stop])
| tp_b : tag_pieces stop (lit "b") (mkPiece Start (lit "b=") 1 :: letters b ++ [glued stop])
| tp_z : forall n v q fs ps, u_copied_headers s = (n, v) :: fs ->
    qp_encoding (Some 124) ascii v q -> copied_pieces ascii fs ps ->
    tag_pieces stop (lit "z") (start (lit "z=" ++ n ++ [58]) :: letters q ++ ps ++ [glued stop])
| tp_ext : forall n v, In (n, v) (u_ext_tags s) ->
    tag_pieces stop n [start (n ++ [61] ++ v ++ stop)].

(** tags in the given order; all but the last end with a semicolon *)
Inductive tags_pieces : list str -> list Piece -> Prop :=
| tps_nil : tags_pieces [] []
| tps_cons : forall n ns ps qs, tag_pieces (if is_nil ns then [] else [59]) n ps ->
    tags_pieces ns qs -> tags_pieces (n :: ns) (ps ++ qs).

End Tags.

(** the tags of a signature, in default order *)
Definition tag_table (s : USig) : list (string * bool) :=
  [("v", true); ("d", true); ("i", is_some (u_identity s)); ("s", true); ("a", true);
   ("c", match u_canonicalization s with mkCanon Simple Simple => false | _ => true end);
   ("l", is_some (u_body_length s)); ("t", is_some (u_timestamp s)); ("x", is_some (u_expiration s));
   ("h", true); ("bh", true); ("b", true); ("z", negb (is_nil (u_copied_headers s)))]%string.
Definition default_names (s : USig) : list str :=
  map (fun p => lit (fst p)) (filter snd (tag_table s)) ++ map fst (u_ext_tags s).

(** the tags in the order requested *)
Definition tag_names (s : USig) (f : OutputFormat) : list str :=
  match of_tag_order f with Some sort => sort (default_names s) | None => default_names s end.

(** ** The header value, with and without signature *)

(** number of characters in the last line of the header field so far *)
Definition column (header_name pre : str) (n : nat) : Prop :=
  (exists a l, pre = a ++ [13; 10] ++ l /\ (forall x y, l <> x ++ [13; 10] ++ y) /\ n = length l)
  \/ ((forall x y, pre <> x ++ [13; 10] ++ y) /\ n = (length header_name + 1 + length pre)%nat).

(** [pre] and [post] are the header value before and after the value of the b=
    tag, which is expected to have [est] characters *)
Definition value_parts (idna : Idna) (s : USig) (f : OutputFormat) (est : nat) (pre post : str) : Prop :=
  exists before after ps qs i1 i2 x y,
    let lay := layout (of_line_width f) (of_indentation f) in
    tag_names s f = before ++ lit "b" :: after
    /\ Forall2 (tag_pieces idna s (of_ascii_only f) [] [59]) before ps
    /\ tags_pieces idna s (of_ascii_only f) [] after qs
    /\ lay (length (of_header_name f) + 1)%nat (concat ps ++ [mkPiece Start (lit "b=") 1]) = (pre, i1)
    /\ lay i1 (letters (repeat 65 est)) = (x, i2)
    /\ lay i2 (glued (if is_nil after then [] else [59]) :: qs) = (post, y).

(** What the formatter relies on. *)
Definition formattable (idna : Idna) (s : USig) : Prop :=
  idna_to_ascii idna (u_domain s) <> None
  /\ idna_to_ascii idna (u_selector s) <> None
  /\ (forall i, u_identity s = Some i -> idna_to_ascii idna (id_domain i) <> None
      /\ forall l, id_local_part i = Some l -> Forall is_scalar l)
  /\ u_signed_headers s <> []
  /\ Forall is_byte (u_body_hash s)
  /\ Forall (fun f => Forall is_byte (snd f)) (u_copied_headers s)
  /\ NoDup (map fst (u_ext_tags s))
  /\ Forall (fun n => Forall (fun c => c < 128) n
             /\ ~ In n (map (fun p => lit (fst p)) (tag_table s))) (map fst (u_ext_tags s)).

(** Output formats accepted. *)
Definition format_ok (f : OutputFormat) : Prop :=
  lower (of_header_name f) = lit "dkim-signature"
  /\ wsps (of_indentation f) /\ of_indentation f <> []
  /\ match of_tag_order f with
     | Some sort => forall names, Permutation (sort names) names
     | None => True
     end.
