(** Model of the domain-like types of src/signature.rs: [DomainName],
    [Selector], [Identity].  Definitions only.

    The IDNA conversions come from the external crate idna and are parameters
    (record [Idna]). *)

From Verif Require Import Base Utf8.
From Coq Require Import String.

(** crate idna: [domain_to_ascii] ([None] is an error) and [domain_to_unicode]
    (the string, and whether the second component is [Ok]) *)
Record Idna := mkIdna {
  idna_to_ascii : str -> option str;
  idna_to_unicode : str -> str * bool
}.

(** src/signature.rs:58, 157: newtypes around strings *)
Notation DomainName := (list N) (only parsing).
Notation Selector := (list N) (only parsing).

(** std [str::ends_with] with a [char] *)
Definition ends_with (c : char) (s : str) : bool := starts_with c (rev s).

(** src/signature.rs:277-283 *)
Definition has_valid_domain_len (s : str) : bool :=
  Nat.leb 1 (str_len s) && Nat.leb (str_len s) 253.
Definition has_valid_label_len (s : str) : bool :=
  Nat.leb 1 (str_len s) && Nat.leb (str_len s) 63.

(** src/signature.rs:265-272 [is_label] *)
Definition is_label (s : str) : bool :=
  has_valid_label_len s
  && negb (starts_with 45 s)
  && negb (ends_with 45 s)
  && forallb (fun c => is_ascii_alphanumeric c || (c =? 45) || (c =? 95)) s.

(** src/signature.rs:245-261 [is_valid_dns_name]; the [expect] is the [None]
    case of the match, which cannot happen as [split_on] is never empty *)
Definition is_valid_dns_name (s : str) (check_tld : bool) : outcome bool :=
  if negb (has_valid_domain_len s) then Val false
  else
    match rev (split_on 46 s) with
    | [] => Panic
    | final_label :: labels =>
        if negb (is_label final_label) || (check_tld && forallb is_ascii_digit final_label)
        then Val false
        else Val (forallb is_label labels)
    end.

Section WithIdna.
Variable idna : Idna.

(** src/signature.rs:234-243 [is_valid_domain_string] *)
Definition is_valid_domain_string (s : str) (check_tld : bool) : outcome bool :=
  match idna_to_ascii idna s with
  | Some ascii_s =>
      let! ok := is_valid_dns_name ascii_s check_tld in
      Val (ok && snd (idna_to_unicode idna s))
  | None => Val false
  end.

(** src/signature.rs:149-151 [is_valid_domain_name], 230-232 [is_valid_selector] *)
Definition is_valid_domain_name (s : str) : outcome bool := is_valid_domain_string s true.
Definition is_valid_selector (s : str) : outcome bool := is_valid_domain_string s false.

(** src/signature.rs:67-74, 140-146 [DomainName::new], [from_str] *)
Definition domain_new (s : str) : outcome (option DomainName) :=
  let! ok := is_valid_domain_name s in Val (if ok then Some s else None).

(** src/signature.rs:166-173, 221-227 [Selector::new], [from_str] *)
Definition selector_new (s : str) : outcome (option Selector) :=
  let! ok := is_valid_selector s in Val (if ok then Some s else None).

(** src/signature.rs:95-98, 176-179 [to_ascii] *)
Definition domain_to_ascii (d : DomainName) : outcome str :=
  match idna_to_ascii idna d with
  | Some s => Val s
  | None => Panic
  end.

(** src/signature.rs:101-104, 182-185 [to_unicode] *)
Definition domain_to_unicode (d : DomainName) : str := fst (idna_to_unicode idna d).

(** src/signature.rs:125-129 [PartialEq for DomainName] *)
Definition domain_eqb (a b : DomainName) : bool := eq_ignore_ascii_case a b.

(** src/signature.rs:78-92 [eq_or_subdomain_of] *)
Definition eq_or_subdomain_of (self other : DomainName) : outcome bool :=
  if domain_eqb self other then Val true
  else
    let! name := domain_to_ascii self in
    let! other := domain_to_ascii other in
    if Nat.leb (str_len other) (str_len name) then
      match split_at_byte (str_len name - str_len other) name with
      | None => Panic
      | Some (l, r) =>
          Val (eq_ignore_ascii_case r other && (is_nil l || ends_with 46 l))
      end
    else Val false.

(** src/signature.rs:301-310 [Identity] *)
Record Identity := mkIdentity {
  id_local_part : option str;
  id_domain : DomainName
}.

(** src/signature.rs:386-388 [is_qtext_smtp] *)
Definition is_qtext_smtp (c : char) : bool :=
  (c =? 32) || (is_ascii_graphic c && negb ((c =? 34) || (c =? 92))) || negb (is_ascii c).

(** src/signature.rs:391-405: the loop *)
Fixpoint quoted_loop (quoted : bool) (s : str) : bool :=
  match s with
  | [] => negb quoted
  | c :: s' =>
      if quoted then
        if (c =? 32) || is_ascii_graphic c then quoted_loop false s' else false
      else if c =? 92 then quoted_loop true s'
      else if negb (is_qtext_smtp c) then false
      else quoted_loop false s'
  end.

(** src/signature.rs:385-409 [is_quoted_string] *)
Definition is_quoted_string (s : str) : bool :=
  match strip_prefix_char 34 s with
  | None => false
  | Some s =>
      match strip_suffix_if (N.eqb 34) s with
      | None => false
      | Some s => quoted_loop false s
      end
  end.

(** src/signature.rs:413-421 [is_atext] *)
Definition is_atext (c : char) : bool :=
  is_ascii_alphanumeric c || existsb (N.eqb c) (lit "!#$%&'*+-/=?^_`{|}~") || negb (is_ascii c).

(** src/signature.rs:424-437: the loop *)
Fixpoint dot_loop (dot : bool) (s : str) : bool :=
  match s with
  | [] => negb dot
  | c :: s' =>
      if dot then
        if is_atext c then dot_loop false s' else false
      else if c =? 46 then dot_loop true s'
      else if negb (is_atext c) then false
      else dot_loop false s'
  end.

(** src/signature.rs:411-438 [is_dot_string] *)
Definition is_dot_string (s : str) : bool := dot_loop true s.

(** src/signature.rs:372-383 [is_local_part] *)
Definition is_local_part (s : str) : bool :=
  if Nat.ltb 64 (str_len s) then false
  else if starts_with 34 s then is_quoted_string s
  else is_dot_string s.

(** src/signature.rs:314-332 [Identity::new] *)
Definition identity_new (s : str) : outcome (option Identity) :=
  match rsplit_once 64 s with
  | None => Val None
  | Some (local_part, domain) =>
      if negb (is_nil local_part) && negb (is_local_part local_part) then Val None
      else
        let! d := domain_new domain in
        Val (match d with
             | None => None
             | Some d => Some (mkIdentity (if is_nil local_part then None else Some local_part) d)
             end)
  end.

(** src/signature.rs:336-341 [Identity::from_domain] *)
Definition identity_from_domain (d : DomainName) : Identity := mkIdentity None d.

(** src/signature.rs:347-354 [Display for Identity] *)
Definition identity_display (i : Identity) : str :=
  match id_local_part i with Some l => l | None => [] end ++ [64] ++ id_domain i.

End WithIdna.
