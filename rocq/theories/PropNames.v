(** Property C58: equality of names. *)

From Coq Require Import String List.
From Verif Require Import Base Utf8 Canon Domain Names SpecCanon SpecDomain SpecNames DomainProofs NamesProofs Lib Sample PropDomain.
Import ListNotations.
Open Scope N_scope.

(** ** C58 *)

(** Domain names, selectors and field names are equal if they differ in the case of
    ASCII letters only; identities if moreover the local parts are identical;
    headers if their fields have equal names and identical values. *)
Theorem C58_equal :
  (forall a b, domain_eqb a b = true <-> same_letters a b)
  /\ (forall a b, selector_eqb a b = true <-> same_letters a b)
  /\ (forall a b, name_eqb a b = true <-> same_letters a b)
  /\ (forall a s, name_is a s = true <-> same_letters a s)
  /\ (forall a b, identity_eqb a b = true <-> same_identity a b)
  /\ (forall a b, header_eqb a b = true <-> same_header a b).
Proof.
  split; [exact eqic_letters|]. split; [exact eqic_letters|]. split; [exact eqic_letters|]. split; [exact eqic_letters|].
  split; [exact identity_eqb_iff|exact header_eqb_iff].
Qed.
Print Assumptions C58_equal.

(** These are equivalence relations, as [Eq] requires. *)
Theorem C58_equivalence :
  (forall a, same_letters a a) /\ (forall a b, same_letters a b -> same_letters b a)
  /\ (forall a b c, same_letters a b -> same_letters b c -> same_letters a c)
  /\ (forall a, same_identity a a) /\ (forall a b, same_identity a b -> same_identity b a)
  /\ (forall a b c, same_identity a b -> same_identity b c -> same_identity a c)
  /\ (forall a, same_header a a) /\ (forall a b, same_header a b -> same_header b a)
  /\ (forall a b c, same_header a b -> same_header b c -> same_header a c).
Proof.
  split; [exact same_letters_refl|]. split; [exact same_letters_sym|]. split; [exact same_letters_trans|].
  split; [intros a; split; [reflexivity|apply same_letters_refl]|].
  split; [intros a b [H H']; split; [auto|apply same_letters_sym; exact H']|].
  split; [intros a b c [H H'] [G G']; split; [congruence|eapply same_letters_trans; eassumption]|].
  split; [induction a; constructor; [split; [apply same_letters_refl|reflexivity]|assumption]|].
  split; [intros a b H; induction H as [|f g a b [X Y] H IH]; constructor; [split; [apply same_letters_sym; exact X|auto]|exact IH]|].
  intros a b c H. revert c. induction H as [|f g a b [X Y] H IH]; intros c G; inversion G as [|? ? ? ? [X' Y'] G']; subst; constructor.
  - split; [eapply same_letters_trans; eassumption|congruence].
  - apply IH. exact G'.
Qed.
Print Assumptions C58_equivalence.

(** Equal ones have the same hash, as [Hash] requires; others are told apart by
    what they give to the hasher. *)
Theorem C58_hash :
  (forall a b, Forall is_scalar a -> Forall is_scalar b -> (domain_hash a = domain_hash b <-> domain_eqb a b = true))
  /\ (forall a b, Forall is_scalar a -> Forall is_scalar b -> (selector_hash a = selector_hash b <-> selector_eqb a b = true))
  /\ (forall a b, Forall is_scalar a -> Forall is_scalar b -> (name_hash a = name_hash b <-> name_eqb a b = true))
  /\ (forall a b, Forall is_scalar (identity_display a) -> Forall is_scalar (identity_display b) ->
        (identity_hash a = identity_hash b <-> identity_eqb a b = true))
  /\ (forall a b, Forall (fun f => Forall is_scalar (fst f)) a -> Forall (fun f => Forall is_scalar (fst f)) b ->
        (header_hash a = header_hash b <-> header_eqb a b = true)).
Proof.
  assert (forall a b, Forall is_scalar a -> Forall is_scalar b ->
    (str_hash (to_ascii_lowercase a) = str_hash (to_ascii_lowercase b) <-> eq_ignore_ascii_case a b = true)) as X.
  { intros. rewrite eqic_letters. apply lower_hash; assumption. }
  split; [exact X|]. split; [exact X|]. split; [exact X|]. split; [|intros; rewrite header_eqb_iff; apply header_hash_iff; assumption].
  intros [la da] [lb db] A B. rewrite identity_eqb_iff. unfold identity_display in A, B. cbn [id_local_part id_domain] in A, B.
  apply Forall_app in A as [A1 A2]. apply Forall_app in A2 as [_ A2]. apply Forall_app in B as [B1 B2]. apply Forall_app in B2 as [_ B2].
  apply identity_hash_iff; cbn [id_local_part id_domain]; auto; intros l ->; assumption.
Qed.
Print Assumptions C58_hash.

(** Equal domain names are interchangeable, with an IDNA implementation that
    ignores case. *)
Theorem C58_interchangeable : forall idna a b c d, idna_ignores_case idna ->
  domain_new idna a = Val (Some a) -> domain_new idna b = Val (Some b) -> domain_new idna c = Val (Some c) -> domain_new idna d = Val (Some d) ->
  domain_eqb a b = true -> domain_eqb c d = true ->
  (exists x y, domain_to_ascii idna a = Val x /\ domain_to_ascii idna b = Val y /\ same_letters x y)
  /\ eq_or_subdomain_of idna a c = eq_or_subdomain_of idna b d.
Proof. intros idna a b c d I A B C D H H'. apply eqic_letters in H, H'. apply same_domains; assumption. Qed.
Print Assumptions C58_interchangeable.

Example C58_example :
  domain_eqb (lit "Example.COM") (lit "eXample.com") = true /\ domain_hash (lit "Example.COM") = domain_hash (lit "eXample.com")
  /\ domain_eqb (lit "[") (lit "{") = false /\ domain_eqb (u "É") (u "é") = false
  /\ identity_eqb (mkIdentity (Some (lit "Me")) (lit "A.b")) (mkIdentity (Some (lit "Me")) (lit "a.B")) = true
  /\ identity_eqb (mkIdentity (Some (lit "Me")) (lit "A.b")) (mkIdentity (Some (lit "me")) (lit "A.b")) = false
  /\ identity_eqb (mkIdentity (Some []) (lit "A.b")) (mkIdentity None (lit "A.b")) = false
  /\ header_eqb [(lit "From", lit " x"); (lit "TO", [])] [(lit "FROM", lit " x"); (lit "to", [])] = true
  /\ header_eqb [(lit "From", lit " x")] [(lit "From", lit " X")] = false.
Proof. repeat split; vm_compute; reflexivity. Qed.

Example C58_interchangeable_example :
  let valid d := domain_new ascii_idna d = Val (Some d) in
  idna_ignores_case ascii_idna /\ valid (lit "Mail.Example.com") /\ valid (lit "mail.example.COM") /\ valid (lit "example.com") /\ valid (lit "Example.com")
  /\ eq_or_subdomain_of ascii_idna (lit "Mail.Example.com") (lit "example.com") = Val true
  /\ eq_or_subdomain_of ascii_idna (lit "mail.example.COM") (lit "Example.com") = Val true.
Proof. split; [exact (proj1 C28_relation_example)|]. repeat split; vm_compute; reflexivity. Qed.

(** For C29: a name that IDNA does not convert has no ASCII form; the types have no
    such values. *)
Theorem C29_no_conversion : forall idna d, idna_to_ascii idna d = None ->
  domain_to_ascii idna d = Panic /\ ~ domain_text idna d true /\ ~ domain_text idna d false.
Proof. exact no_conversion. Qed.
Print Assumptions C29_no_conversion.

Example C29_no_conversion_example : idna_to_ascii sample_idna (u "例") = None.
Proof. vm_compute. reflexivity. Qed.
