(** Properties C28-C30: domain names, selectors, identities. *)

From Coq Require Import String List.
From Verif Require Import Base Utf8 Canon Domain SpecCanon SpecDomain DomainProofs Lib Sample.
Import ListNotations.
Open Scope N_scope.

(** C28.  For every IDNA implementation. *)
Theorem C28_subdomain_exact : forall idna sub sup d1 d2,
  domain_new idna sub = Val (Some d1) -> domain_new idna sup = Val (Some d2) ->
  exists b, eq_or_subdomain_of idna sub sup = Val b /\
    (b = true <-> lower sub = lower sup \/ ascii_subdomain idna sub sup).
Proof.
  intros idna sub sup d1 d2 H1 H2.
  destruct (domain_new_spec idna sub) as (r1 & E1 & X1). destruct (domain_new_spec idna sup) as (r2 & E2 & X2).
  rewrite E1 in H1. rewrite E2 in H2. injection H1 as H1. injection H2 as H2.
  apply X1 in H1. apply X2 in H2. eapply eq_or_subdomain_spec; [apply H1|apply H2].
Qed.
Print Assumptions C28_subdomain_exact.

(** With an IDNA implementation that ignores case, A-labels decide; the relation
    is reflexive and transitive. *)
Theorem C28_subdomain_relation : forall idna,
  idna_ignores_case idna ->
  let valid d := domain_new idna d = Val (Some d) in
  let sub a b := eq_or_subdomain_of idna a b = Val true in
  (forall a b, valid a -> valid b -> (sub a b <-> ascii_subdomain idna a b))
  /\ (forall a, valid a -> sub a a)
  /\ (forall a b c, valid a -> valid b -> valid c -> sub a b -> sub b c -> sub a c).
Proof. exact subdomain_relation. Qed.
Print Assumptions C28_subdomain_relation.

Example C28_example :
  let sub a b := eq_or_subdomain_of sample_idna a b in
  sub (lit "Mail.Example.com") (lit "example.COM") = Val true
  /\ sub (lit "badexample.com") (lit "example.com") = Val false
  /\ sub (lit "example.com") (lit "mail.example.com") = Val false
  /\ sub (lit "a." ++ u "例子" ++ lit ".com") (lit "xn--fsqu00a.com") = Val true
  /\ domain_new sample_idna (lit "Mail.Example.com") = Val (Some (lit "Mail.Example.com")).
Proof. repeat split; vm_compute; reflexivity. Qed.

(** an IDNA implementation for ASCII domains only *)
Definition ascii_idna : Idna :=
  mkIdna (fun s => if forallb is_ascii s then Some (to_ascii_lowercase s) else None)
         (fun s => (s, forallb is_ascii s)).
Example C28_relation_example :
  idna_ignores_case ascii_idna
  /\ domain_new ascii_idna (lit "Mail.Example.com") = Val (Some (lit "Mail.Example.com"))
  /\ domain_new ascii_idna (lit "example.com") = Val (Some (lit "example.com"))
  /\ eq_or_subdomain_of ascii_idna (lit "Mail.Example.com") (lit "example.com") = Val true.
Proof.
  split; [|repeat split; vm_compute; reflexivity].
  intros s t a b H. simpl. destruct (forallb is_ascii s), (forallb is_ascii t); try discriminate.
  intros X Y. injection X as <-. injection Y as <-. rewrite (HeaderCanonProofs.lower_eq s), (HeaderCanonProofs.lower_eq t), H. reflexivity.
Qed.

(** C29 *)
Theorem C29_domain_accepted : forall idna s,
  exists r, domain_new idna s = Val r /\ forall d, r = Some d <-> d = s /\ domain_text idna s true.
Proof. exact domain_new_spec. Qed.
Print Assumptions C29_domain_accepted.

Theorem C29_selector_accepted : forall idna s,
  exists r, selector_new idna s = Val r /\ forall d, r = Some d <-> d = s /\ domain_text idna s false.
Proof. exact selector_new_spec. Qed.
Print Assumptions C29_selector_accepted.

(** A domain may have a single label. *)
Theorem C29_two_labels_refuted : ~ forall idna s d a, domain_new idna s = Val (Some d) ->
  idna_to_ascii idna s = Some a -> In 46 a.
Proof.
  intros H. specialize (H ascii_idna (lit "com") (lit "com") (lit "com") eq_refl eq_refl). vm_compute in H.
  repeat destruct H as [H|H]; try discriminate H. exact H.
Qed.
Print Assumptions C29_two_labels_refuted.

(** converting what was accepted never panics, and gives a DNS name *)
Theorem C29_conversions : forall idna s d,
  domain_new idna s = Val (Some d) \/ selector_new idna s = Val (Some d) ->
  exists a, domain_to_ascii idna d = Val a /\ idna_to_ascii idna s = Some a /\ dns_name a false
    /\ idna_to_unicode idna s = (domain_to_unicode idna d, true).
Proof. exact conversions. Qed.
Print Assumptions C29_conversions.

Example C29_example :
  domain_text sample_idna (lit "a_b.x-y.com") true
  /\ domain_new sample_idna (u "例子" ++ lit ".com") = Val (Some (u "例子" ++ lit ".com"))
  /\ domain_to_ascii sample_idna (u "例子" ++ lit ".com") = Val (lit "xn--fsqu00a.com")
  /\ domain_new sample_idna (lit "com") = Val (Some (lit "com"))
  /\ domain_new sample_idna (lit "a.123") = Val None
  /\ selector_new sample_idna (lit "a.123") = Val (Some (lit "a.123"))
  /\ selector_new sample_idna (lit "-a") = Val None
  /\ selector_new sample_idna (lit "a-.b") = Val None
  /\ selector_new sample_idna (lit "a..b") = Val None
  /\ selector_new sample_idna (repeat 97 63) = Val (Some (repeat 97 63))
  /\ selector_new sample_idna (repeat 97 64) = Val None.
Proof.
  split.
  - destruct (domain_new_spec sample_idna (lit "a_b.x-y.com")) as (r & E & H).
    assert (domain_new sample_idna (lit "a_b.x-y.com") = Val (Some (lit "a_b.x-y.com"))) as X by (vm_compute; reflexivity).
    rewrite X in E. injection E as <-. apply (H (lit "a_b.x-y.com")). reflexivity.
  - repeat split; vm_compute; reflexivity.
Qed.

(** C30 *)
Theorem C30_identity_exact : forall idna s,
  exists r, identity_new idna s = Val r /\ forall i, r = Some i <-> identity_text idna s i.
Proof. exact identity_new_spec. Qed.
Print Assumptions C30_identity_exact.

Theorem C30_round_trip : forall idna s i,
  identity_new idna s = Val (Some i) ->
  identity_display i = s /\ identity_new idna (identity_display i) = Val (Some i).
Proof.
  intros idna s i H. destruct (identity_new_spec idna s) as (r & E & X). rewrite E in H. injection H as ->.
  destruct (X i) as [Y _]. destruct (Y eq_refl) as (_ & _ & Z).
  assert (identity_display i = s) as D.
  { unfold identity_display. destruct (id_local_part i); [destruct Z as [-> _]|rewrite Z]; reflexivity. }
  rewrite D. split; [reflexivity|assumption].
Qed.
Print Assumptions C30_round_trip.

(** the identity made of a domain only *)
Theorem C30_from_domain : forall idna d,
  domain_new idna d = Val (Some d) -> ~ In 64 d ->
  identity_new idna (identity_display (identity_from_domain d)) = Val (Some (identity_from_domain d)).
Proof.
  intros idna d H Hd. destruct (identity_new_spec idna (identity_display (identity_from_domain d))) as (r & E & X).
  rewrite E. f_equal. apply X. unfold identity_text. simpl. split; [exact Hd|]. split; [|reflexivity].
  destruct (domain_new_spec idna d) as (r' & E' & X'). rewrite E' in H. injection H as ->. apply (X' d). reflexivity.
Qed.
Print Assumptions C30_from_domain.

Example C30_example :
  identity_new sample_idna (lit "a.b@x@example.com") = Val None
  /\ identity_new sample_idna ([34] ++ lit "a b@" ++ [92; 34; 34] ++ lit "@example.com")
     = Val (Some (mkIdentity (Some ([34] ++ lit "a b@" ++ [92; 34; 34])) (lit "example.com")))
  /\ identity_new sample_idna (lit "@example.com") = Val (Some (mkIdentity None (lit "example.com")))
  /\ identity_new sample_idna (u "我.x@example.com") = Val (Some (mkIdentity (Some (u "我.x")) (lit "example.com")))
  /\ identity_new sample_idna (lit "a.@example.com") = Val None
  /\ identity_new sample_idna (lit "a..b@example.com") = Val None
  /\ identity_new sample_idna (repeat 97 65 ++ lit "@example.com") = Val None.
Proof. repeat split; vm_compute; reflexivity. Qed.
