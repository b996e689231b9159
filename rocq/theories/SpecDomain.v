(** Specification of domain names, selectors and identities. *)

From Coq Require Import String List.
From Verif Require Import Base Utf8 Domain SpecCanon.

Fixpoint dotted (labels : list str) : str :=
  match labels with
  | [] => []
  | [l] => l
  | l :: ls => l ++ [46] ++ dotted ls
  end.

Definition letter_digit (c : char) : Prop := 48 <= c <= 57 \/ 65 <= c <= 90 \/ 97 <= c <= 122.

(** letters, digits, underscores, and inner hyphens *)
Definition dns_label (l : str) : Prop :=
  (1 <= length l <= 63)%nat
  /\ Forall (fun c => letter_digit c \/ c = 45 \/ c = 95) l
  /\ (forall l', l <> 45 :: l') /\ (forall l', l <> l' ++ [45]).

Definition dns_name (s : str) (final_not_numeric : bool) : Prop :=
  (1 <= length s <= 253)%nat
  /\ exists init final, s = dotted (init ++ [final])
      /\ Forall dns_label (init ++ [final])
      /\ (final_not_numeric = true -> ~ Forall (fun c => 48 <= c <= 57) final).

(** convertible in both directions, and a DNS name in ASCII form *)
Definition domain_text (idna : Idna) (s : str) (final_not_numeric : bool) : Prop :=
  (exists a, idna_to_ascii idna s = Some a /\ dns_name a final_not_numeric)
  /\ exists t, idna_to_unicode idna s = (t, true).

(** [sup]'s labels are the final labels of [sub] *)
Definition label_suffix (sub sup : str) : Prop :=
  exists la lb, lb <> [] /\ Forall (fun l => ~ In 46 l) (la ++ lb)
    /\ sub = dotted (la ++ lb) /\ sup = dotted lb.

Definition ascii_subdomain (idna : Idna) (sub sup : str) : Prop :=
  exists a b, idna_to_ascii idna sub = Some a /\ idna_to_ascii idna sup = Some b
    /\ label_suffix (lower a) (lower b).

(** IDNA conversion ignores ASCII case, as UTS 46 requires *)
Definition idna_ignores_case (idna : Idna) : Prop :=
  forall s t a b, lower s = lower t -> idna_to_ascii idna s = Some a -> idna_to_ascii idna t = Some b ->
    lower a = lower b.

(** ... and keeps ASCII characters, up to case; except that letters and <, =, >
    may be composed with a combining character that follows *)
Definition composable (c : char) : Prop := 97 <= c <= 122 \/ 60 <= c <= 62.
Definition idna_keeps (idna : Idna) : Prop :=
  forall s a c, idna_to_ascii idna s = Some a -> In c (lower s) -> c < 128 -> composable c \/ In c (lower a).

(** RFC 5321, with non-ASCII characters as of RFC 6531 *)
Definition atext (c : char) : Prop :=
  letter_digit c \/ In c (lit "!#$%&'*+-/=?^_`{|}~") \/ 128 <= c.
Definition dot_string (s : str) : Prop :=
  exists atoms, atoms <> [] /\ Forall (fun a => a <> [] /\ Forall atext a) atoms /\ s = dotted atoms.

Inductive qcontent : str -> Prop :=
| qc_nil : qcontent []
| qc_text : forall c s, (32 <= c <= 126 /\ c <> 34 /\ c <> 92) \/ 128 <= c -> qcontent s -> qcontent (c :: s)
| qc_pair : forall c s, 32 <= c <= 126 -> qcontent s -> qcontent (92 :: c :: s).
Definition quoted_string (s : str) : Prop := exists q, s = [34] ++ q ++ [34] /\ qcontent q.

(** at most 64 octets *)
Definition local_part (s : str) : Prop :=
  (length (as_bytes s) <= 64)%nat /\ (dot_string s \/ quoted_string s).

Definition identity_text (idna : Idna) (s : str) (i : Identity) : Prop :=
  ~ In 64 (id_domain i) /\ domain_text idna (id_domain i) true /\
  match id_local_part i with
  | None => s = [64] ++ id_domain i
  | Some l => s = l ++ [64] ++ id_domain i /\ local_part l
  end.
